(** BLAKE2b after histories of word and block feeds in which complete blocks are forgotten. *)
From Coq Require Import NArith Arith List Bool Lia ZifyBool ZifyNat ZifyN ZArith.
From Verif Require Import SpecStream LStream MPack LInj MAcc LAcc LBsp MConstr SpecMD LMD LMDProps LHaifa.
From Verif Require Import SpecWords LWords SpecBlake2b MBlake2b LBlake2b SpecFeedsBlake.
Import ListNotations.
Ltac Zify.zify_post_hook ::= Z.div_mod_to_equations.

Section Lossy.
Context (e : endian) (w bw db : nat) (init : list N) (comp : list N -> list N -> N -> N -> list N)
        (padding : list N -> N -> option (list N)) (salt : N) (inj : injector).
Context (Hw8 : w mod 8 = 0) (Hw : 0 < w) (Hbw : 0 < bw) (HI : injector_contract e w bw inj) (Hsalt : (salt <> 0)%N).
Notation bb := (w * bw).
Context (l : N -> bool).
(** The compression function that leaves out the calls at the counts in [l]. *)
Definition skipping (s b : list N) (cnt f : N) : list N := if (f =? 0)%N && l cnt then s else comp s b cnt f.
Notation C := (haifa_construction e w bw db init comp padding salt).
Notation E := (haifa_construction e w bw db init skipping padding salt).
Definition as_E (a : acc C) : acc E := @Mk_acc E (filled a) (total a) (cache a) (cst a).

Lemma E_wf : wf_construction E.
Proof. constructor; auto. Qed.

Lemma flush_agree a : (filled a = true -> l (total a) = false) -> flush E (as_E a) = as_E (flush C a).
Proof.
  intros H. unfold flush, as_E. cbn [filled total cache cst]. destruct (filled a) eqn:Ef; [|now rewrite Ef].
  cbn [filled total cache cst]. f_equal. cbn [c_proc haifa_construction]. unfold skipping. now rewrite H.
Qed.

Lemma append_agree a src n :
  (forall m, (total a < m < total a + N.of_nat n)%N -> l m = false) ->
  (total a + N.of_nat n < 2 ^ 64)%N -> cached_bits C a < bb ->
  append_bits E inj (as_E a) src n = option_map as_E (append_bits C inj a src n).
Proof.
  intros Hl Hs Hc. unfold append_bits.
  change (cached_bits E (as_E a)) with (cached_bits C a). change (block_bits E) with bb. change (block_bits C) with bb.
  change (c_word E) with w. change (c_words E) with bw. change (c_word C) with w. change (c_words C) with bw.
  set (cd := cached_bits C a) in *. set (m := if n <? bb - cd then n else bb - cd).
  assert (Hm : 0 < m \/ n = 0) by (unfold m; destruct (n <? bb - cd) eqn:X; lia).
  assert (Hmn : m <= n) by (unfold m; destruct (n <? bb - cd) eqn:X; lia).
  clearbody m. cbn [as_E cache total cst filled].
  destruct (inject inj w bw src m (cache a) cd 0) as [c1|]; [|reflexivity].
  destruct (cd + m =? bb); [|reflexivity].
  destruct (m <? n) eqn:E2; [|reflexivity].
  destruct (inject inj w bw src (n - m) c1 0 m) as [c2|]; [|reflexivity].
  cbn [option_map]. unfold as_E. cbn [filled total cache cst]. do 2 f_equal.
  cbn [c_proc haifa_construction]. unfold skipping. rewrite wrap64_small by lia.
  rewrite Hl by lia. reflexivity.
Qed.

Definition flen (f : feed) : nat :=
  match f with FBlock _ n => if n =? 0 then bb else n | FWord _ n => if n =? 0 then w else n end.

Lemma feed_agree a f : (filled a = true -> l (total a) = false) ->
  (forall m, (total a < m < total a + N.of_nat (flen f))%N -> l m = false) ->
  (total a + N.of_nat (flen f) < 2 ^ 64)%N ->
  acc_feed E inj (as_E a) f = option_map as_E (acc_feed C inj a f).
Proof.
  intros Hf Hl Hs.
  assert (Ht : total (flush C a) = total a) by (unfold flush; destruct (filled a); reflexivity).
  assert (Hc : cached_bits C (flush C a) < bb).
  { unfold cached_bits. change (block_bits C) with bb.
    assert (Hb : (N.of_nat bb <> 0)%N) by nia. pose proof (N.mod_lt (total (flush C a)) (N.of_nat bb) Hb). lia. }
  rewrite <- Ht in Hs.
  assert (Hl' : forall m, (total (flush C a) < m < total (flush C a) + N.of_nat (flen f))%N -> l m = false)
    by (rewrite Ht; exact Hl).
  destruct f as [v n|x n]; cbn [flen] in *; cbn [acc_feed].
  - change (block_bits E) with bb. change (block_bits C) with bb. set (n' := if n =? 0 then bb else n) in *. clearbody n'.
    unfold process_block_value. rewrite flush_agree by exact Hf.
    change (cached_bits E (as_E (flush C a))) with (cached_bits C (flush C a)).
    destruct (cached_bits C (flush C a) =? 0); cbn [negb].
    + change (block_bits E) with bb. change (block_bits C) with bb.
      change (words_for E n') with (words_for C n'). change (c_words E) with bw. change (c_words C) with bw.
      destruct (n' =? bb); [reflexivity|]. destruct (words_for C n' <=? bw); reflexivity.
    + now apply append_agree.
  - change (c_word E) with w. change (c_word C) with w. set (n' := if n =? 0 then w else n) in *. clearbody n'.
    unfold process_word_value. rewrite flush_agree by exact Hf.
    change (cached_bits E (as_E (flush C a))) with (cached_bits C (flush C a)).
    change (c_word E) with w. change (c_word C) with w.
    destruct (cached_bits C (flush C a) mod w =? 0); cbn [negb]; [reflexivity|]. now apply append_agree.
Qed.

(** A pending complete block that nobody marked and that is left out. *)
Lemma forget_E a M : weakR E a M -> filled a = false -> length M mod bb = 0 -> M <> [] -> l (count M) = true ->
  flushedR E a M.
Proof.
  intros (M0 & T & -> & R & _) Hf Hm Hne Hl. destruct R. pose proof (bb_pos E E_wf) as Hbb. change (block_bits E) with bb in *.
  assert (HT : length T = bb).
  { rewrite app_length, <- Nat.add_mod_idemp_l, rf_M0, Nat.add_0_l in Hm by lia.
    destruct (Nat.eq_dec (length T) bb) as [X|X]; [exact X|]. rewrite Nat.mod_small in Hm by lia.
    destruct T; [|discriminate]. rewrite rf_nil in Hne by reflexivity. now elim Hne. }
  exists (M0 ++ T), []. unfold flush. rewrite Hf. rewrite app_nil_r. change (block_bits E) with bb. cbn [length firstn].
  repeat split; auto; try apply rf_cache.
  rewrite (absorbed_snoc E E_wf) by auto. rewrite rf_state. cbn [c_proc haifa_construction]. unfold skipping. now rewrite Hl.
Qed.

Notation bits := (feed_bits E).
Notation lost := (forgotten w bb bits).

Lemma flen_bits f : feed_ok E f -> length (bits f) = flen f /\ 0 < flen f.
Proof.
  intros H. split; [rewrite feed_bits_length by exact H; reflexivity|].
  assert (0 < bb) by nia. destruct f as [v n|x n]; cbn [flen]; destruct (n =? 0) eqn:X; lia.
Qed.

(** Blocks that will be forgotten end later than [g]. *)
Lemma lost_later fs : Forall (feed_ok E) fs -> forall g i, In i (lost g fs) -> g < (i + 1) * bb.
Proof.
  induction 1 as [|f fs Hf HF IH]; intros g i Hi; [destruct Hi|].
  cbn [forgotten] in Hi. apply in_app_or in Hi. destruct (flen_bits f Hf) as [Lf Pf].
  assert (0 < bb) by nia.
  destruct Hi as [Hi|Hi]; [|apply IH in Hi; lia].
  match type of Hi with In _ (if ?c then _ else _) => destruct c eqn:Ec end; [|destruct Hi].
  apply andb_true_iff in Ec. destruct Ec as [Ec _]. destruct f; [discriminate|].
  apply andb_true_iff in Ec. destruct Ec as [_ Ec]. apply Nat.eqb_eq in Ec.
  destruct Hi as [<-|[]]. set (g' := g + length (bits (FWord v n))) in *.
  assert (Hd : g' = bb * (g' / bb)) by (apply Nat.div_exact; lia).
  assert (g' / bb <> 0) by (intros Z; rewrite Z in Hd; lia). nia.
Qed.

(** [l] says which of the blocks still to come are forgotten. *)
Definition tells (g : nat) (fs : list feed) : Prop :=
  forall c, g < c <= g + length (flat_map bits fs) -> l (N.of_nat c) = existsb (fun i => (i + 1) * bb =? c) (lost g fs).

Lemma tells_head f fs g : feed_ok E f -> Forall (feed_ok E) fs -> tells g (f :: fs) ->
  (forall m, (N.of_nat g < m < N.of_nat g + N.of_nat (flen f))%N -> l m = false) /\
  l (N.of_nat (g + flen f)) =
    (match f with FBlock _ _ => false | FWord _ _ => (g mod w =? 0) && ((g + flen f) mod bb =? 0) end &&
     match fs with [] => false | _ => true end) /\
  tells (g + flen f) fs.
Proof.
  intros Hf HF H. destruct (flen_bits f Hf) as [Lf Pf]. assert (Hb : 0 < bb) by nia.
  unfold tells in H. cbn [flat_map forgotten] in H. rewrite app_length, Lf in H.
  set (cond := match f with FBlock _ _ => false | FWord _ _ => (g mod w =? 0) && ((g + flen f) mod bb =? 0) end &&
     match fs with [] => false | _ => true end) in *.
  assert (Hcond : cond = true -> (g + flen f) / bb - 1 + 1 = (g + flen f) / bb /\ ((g + flen f) / bb) * bb = g + flen f).
  { intros X. apply andb_true_iff in X. destruct X as [X _]. destruct f; [discriminate|].
    apply andb_true_iff in X. destruct X as [_ X]. apply Nat.eqb_eq in X.
    assert (Hd : g + flen (FWord v n) = bb * ((g + flen (FWord v n)) / bb)) by (apply Nat.div_exact; lia).
    assert ((g + flen (FWord v n)) / bb <> 0) by (intros Z; rewrite Z in Hd; lia). split; lia. }
  assert (Hlater : forall c, c <= g + flen f -> existsb (fun i => (i + 1) * bb =? c) (lost (g + flen f) fs) = false).
  { intros c Hc. destruct (existsb _ _) eqn:X; [|reflexivity]. apply existsb_exists in X. destruct X as (i & Hi & X).
    apply (lost_later fs HF) in Hi. lia. }
  split; [|split].
  - intros m Hm. specialize (H (N.to_nat m)). rewrite Nnat.N2Nat.id in H. rewrite H by lia.
    rewrite existsb_app, Hlater, orb_false_r by lia.
    destruct cond; [|reflexivity]. destruct (Hcond eq_refl) as [X1 X2]. cbn [existsb]. rewrite X1, X2.
    destruct (g + flen f =? N.to_nat m) eqn:Y; [lia|reflexivity].
  - rewrite H by lia. rewrite existsb_app, Hlater, orb_false_r by lia.
    destruct cond; [|reflexivity]. destruct (Hcond eq_refl) as [X1 X2]. cbn [existsb]. rewrite X1, X2, Nat.eqb_refl. reflexivity.
  - intros c Hc. rewrite H by lia. rewrite existsb_app.
    destruct cond; [|reflexivity]. destruct (Hcond eq_refl) as [X1 X2]. cbn [existsb]. rewrite X1, X2.
    destruct (g + flen f =? c) eqn:Y; [lia|reflexivity].
Qed.

Lemma word_unmarked a M x n a' : flushedR E a M -> fine E M -> length M mod w = 0 ->
  acc_feed E inj a (FWord x n) = Some a' -> filled a' = false.
Proof.
  intros (M0 & T & -> & Ht & Hc & H0 & HT & Hh & Hs & Hf) Hfine Hm X.
  assert (Hbb : 0 < bb) by nia. change (block_bits E) with bb in *.
  cbn [acc_feed] in X. unfold process_word_value in X.
  rewrite (cached_spec E E_wf (flush E a) M0 T) in X by auto. change (c_word E) with w in X.
  assert (ET : length T mod w = 0).
  { rewrite app_length in Hm.
    assert (Hd : length M0 = bb * (length M0 / bb)) by (apply Nat.div_exact; lia).
    rewrite Hd in Hm. rewrite <- Nat.mul_assoc, Nat.add_comm, Nat.mul_comm, Nat.mod_add in Hm by lia.
    exact Hm. }
  rewrite ET in X. cbn [Nat.eqb negb] in X. injection X as <-. exact Hf.
Qed.

Lemma lossy_feeds_E fs : forall (a : acc C) G,
  flushedR E (as_E a) G -> (fs = [] -> weakR E (as_E a) G) -> Forall (feed_ok E) fs ->
  (N.of_nat (length G + length (flat_map bits fs)) < 2 ^ 64)%N ->
  (filled a = true -> l (total a) = false) -> tells (length G) fs ->
  exists a', acc_feeds C inj a fs = Some a' /\ weakR E (as_E a') (G ++ flat_map bits fs).
Proof.
  induction fs as [|f fs IH]; intros a G HR HW HF Hlen Hfl Htell.
  - exists a. cbn [acc_feeds flat_map]. rewrite app_nil_r. split; [reflexivity|]. now apply HW.
  - inversion HF as [|? ? Hx HF']; subst. destruct (flen_bits f Hx) as [Lf Pf].
    destruct (tells_head f fs (length G) Hx HF' Htell) as (T1 & T2 & T3).
    cbn [flat_map] in Hlen |- *. rewrite app_length, Lf in Hlen.
    assert (Ht : total a = N.of_nat (length G)).
    { destruct HR as (M0 & T & _ & Ht & _). unfold flush in Ht. cbn [as_E filled] in Ht.
      assert (X : total a = count G) by (destruct (filled a); exact Ht).
      rewrite X. apply count_short. unfold short, blen. lia. }
    assert (Hs1 : short (G ++ bits f)) by (unfold short, blen; rewrite app_length, Lf; lia).
    assert (Lm : length (G ++ bits f) = length G + flen f) by now rewrite app_length, Lf.
    assert (Hag : acc_feed E inj (as_E a) f = option_map as_E (acc_feed C inj a f)).
    { apply feed_agree; [exact Hfl| |]; rewrite Ht; [exact T1|lia]. }
    cbn [acc_feeds].
    assert (Step : forall e1, acc_feed E inj (as_E a) f = Some e1 ->
       (fs = [] -> weakR E e1 (G ++ bits f)) -> flushedR E e1 (G ++ bits f) ->
       (filled e1 = true -> l (N.of_nat (length G + flen f)) = false) -> total e1 = N.of_nat (length G + flen f) ->
       exists a', match acc_feed C inj a f with None => None | Some a1 => acc_feeds C inj a1 fs end = Some a' /\
         weakR E (as_E a') (G ++ bits f ++ flat_map bits fs)).
    { intros e1 X HW1 HR1 Hf1 Ht1. rewrite Hag in X. destruct (acc_feed C inj a f) as [a1|]; [|discriminate].
      cbn [option_map] in X. injection X as <-. rewrite app_assoc. apply IH; auto.
      - rewrite Lm. lia.
      - intros Hf2. change (total a1 = N.of_nat (length G + flen f)) in Ht1. rewrite Ht1. now apply Hf1.
      - rewrite Lm. exact T3. }
    assert (TW : forall e1, weakR E e1 (G ++ bits f) -> total e1 = N.of_nat (length G + flen f)).
    { intros e1 (M0 & T & Es & R & _). destruct R. rewrite rf_total, <- Es, count_short by exact Hs1. unfold blen. now rewrite Lm. }
    destruct f as [v n|x n]; destruct Hx as [Hx1 Hx2].
    + destruct (block_feed_flushed E inj E_wf HI (as_E a) G v n HR Hx1 Hx2) as (e1 & E1 & R1); [now left|].
      apply (Step e1); auto.
      * intros _. now apply strict_weak.
      * apply (flush_spec E E_wf). exact R1.
      * apply TW. now apply strict_weak.
    + destruct (word_feed_flushed E inj E_wf HI (as_E a) G x n HR Hx1 Hx2) as (e1 & E1 & R1 & S1); [now left|].
      change (c_word E) with w in *. change (block_bits E) with bb in *.
      destruct ((length G mod w =? 0) && ((length G + flen (FWord x n)) mod bb =? 0)) eqn:Ec.
      * pose proof Ec as Ec'. apply andb_true_iff in Ec. destruct Ec as [Ec1 Ec2]. apply Nat.eqb_eq in Ec1, Ec2.
        assert (Hf1 : filled e1 = false).
        { eapply word_unmarked; [exact HR| |exact Ec1|exact E1]. left. unfold short, blen. lia. }
        destruct fs as [|g fs].
        { (* the last feed *)
          pose proof E1 as X. rewrite Hag in X. destruct (acc_feed C inj a (FWord x n)) as [a1|]; [|discriminate].
          cbn [option_map] in X. injection X as <-. exists a1. cbn [acc_feeds flat_map]. rewrite app_nil_r.
          split; [reflexivity|]. exact R1. }
        apply (Step e1); auto.
        { apply forget_E; auto.
          - rewrite Lm. exact Ec2.
          - intros Z. rewrite Z in Lm. cbn [length] in Lm. lia.
          - rewrite count_short by exact Hs1. unfold blen. rewrite Lm, T2. reflexivity. }
        { rewrite Hf1. discriminate. }
      * assert (R2 : strictR E e1 (G ++ bits (FWord x n))).
        { apply S1. apply andb_false_iff in Ec. cbn [flen] in Ec.
          destruct Ec as [Ec|Ec]; apply Nat.eqb_neq in Ec; [now right|now left]. }
        apply (Step e1); auto.
        apply (flush_spec E E_wf). exact R2.
Qed.

Lemma result_agree a : l (total a) = false -> acc_result C a = acc_result E (as_E a).
Proof.
  intros H. unfold acc_result. cbn [as_E cst cache total c_digest haifa_construction]. unfold haifa_digest, skipping.
  rewrite H, !andb_false_r. destruct (salt =? 0)%N eqn:Z; [|reflexivity]. lia.
Qed.
End Lossy.

(** Forgotten blocks end before the last feed does. *)
Lemma lost_before w bw e db init comp padding salt (Hw : 0 < w) (Hbw : 0 < bw) fs :
  let E := haifa_construction e w bw db init comp padding salt in
  Forall (feed_ok E) fs -> forall g i, In i (forgotten w (w * bw) (feed_bits E) g fs) ->
  (i + 1) * (w * bw) < g + length (flat_map (feed_bits E) fs).
Proof.
  intros E. assert (WFE : 0 < w * bw) by nia.
  induction 1 as [|f fs Hf HF IH]; intros g i Hi; [destruct Hi|].
  cbn [forgotten flat_map] in Hi |- *. rewrite app_length. apply in_app_or in Hi.
  destruct Hi as [Hi|Hi]; [|apply IH in Hi; lia].
  match type of Hi with In _ (if ?c then _ else _) => destruct c eqn:Ec end; [|destruct Hi].
  apply andb_true_iff in Ec. destruct Ec as [Ec En]. destruct f; [discriminate|].
  apply andb_true_iff in Ec. destruct Ec as [_ Ec]. apply Nat.eqb_eq in Ec.
  destruct Hi as [<-|[]]. destruct fs as [|f1 fs]; [discriminate|].
  inversion HF as [|? ? Hf1 _]; subst.
  assert (P1 : 0 < length (feed_bits E f1)).
  { rewrite feed_bits_length by exact Hf1. change (block_bits E) with (w * bw). change (c_word E) with w.
    destruct f1 as [v1 n1|x1 n1]; destruct (n1 =? 0) eqn:Z; lia. }
  assert (P0 : 0 < length (feed_bits E (FWord v n))).
  { rewrite feed_bits_length by exact Hf. change (c_word E) with w. destruct (n =? 0) eqn:Z; lia. }
  cbn [flat_map]. rewrite app_length.
  set (g' := g + length (feed_bits E (FWord v n))) in *.
  assert (Hd : g' = w * bw * (g' / (w * bw))) by (apply Nat.div_exact; lia).
  assert (g' / (w * bw) <> 0) by (intros Z; rewrite Z in Hd; lia). nia.
Qed.

Section Digest.
Context (ic : injector) (db : nat) (Hdb : 0 < db <= 512) (H8 : db mod 8 = 0).
Context (HI : injector_contract LOBB 64 16 ic) (lost : list nat).
Definition lostN (c : N) : bool := existsb (fun i => (i + 1) * 1024 =? N.to_nat c) lost.
Notation E := (haifa_construction LOBB 64 16 (db / 8) (haifa_reset db blake2b_iv) (skipping blake2b_process_block lostN)
                 (blake2b_padding ic 64 16) 0xFFFFFFFFFFFFFFFF).

Lemma block_words b : length b = 1024 -> words_of_stream LOBB 64 b = words_of_block b.
Proof.
  intros L. unfold words_of_block. rewrite <- (le_words_stream 8) by (try lia; apply words_of_stream_fits).
  f_equal. symmetry. apply octets_bits_octets. now rewrite L.
Qed.

Lemma absorb_without bs : forall h i, block_ok 64 8 h -> (N.of_nat ((i + length bs) * 1024) < 2 ^ 64)%N ->
  Forall (fun b => length b = 1024) bs ->
  absorb E h (N.of_nat (i * 1024)) bs = non_final_without lost h i (map words_of_block bs) /\
  block_ok 64 8 (non_final_without lost h i (map words_of_block bs)).
Proof.
  induction bs as [|b bs IH]; intros h i Hh Hs HF; cbn [map absorb non_final_without]; [auto|].
  inversion HF as [|? ? Lb HF']; subst. cbn [length] in Hs.
  change (block_bits E) with 1024.
  replace (N.of_nat (i * 1024) + N.of_nat 1024)%N with (N.of_nat ((i + 1) * 1024)) by lia.
  rewrite wrap64_small by (eapply N.le_lt_trans; [|exact Hs]; lia).
  change (c_proc E) with (fun s b seen => if lostN seen then s else blake2b_process_block s b seen 0%N).
  change (c_endian E) with LOBB. change (c_word E) with 64. cbv beta.
  rewrite block_words by exact Lb.
  assert (El : lostN (N.of_nat ((i + 1) * 1024)) = existsb (Nat.eqb i) lost).
  { unfold lostN. rewrite Nnat.Nat2N.id. clear. induction lost as [|j js IHj]; [reflexivity|]. cbn [existsb].
    rewrite IHj. f_equal. destruct (Nat.eqb_spec i j) as [->|Hn]; [apply Nat.eqb_refl|apply Nat.eqb_neq; nia]. }
  rewrite El. destruct (existsb (Nat.eqb i) lost).
  - apply IH; auto. eapply N.le_lt_trans; [|exact Hs]. lia.
  - destruct (process_block_F h (words_of_block b) ((i + 1) * 128) false) as [X K]; auto.
    { change (2 ^ 64)%N with (8 * 2 ^ 61)%N in Hs. lia. }
    replace ((i + 1) * 1024) with (8 * ((i + 1) * 128)) by lia.
    change (flag false) with 0%N in X. rewrite X. replace (8 * ((i + 1) * 128)) with ((i + 1) * 1024) by lia.
    apply IH; auto. eapply N.le_lt_trans; [|exact Hs]. lia.
Qed.

Lemma without_out M : (N.of_nat (length M) < 2 ^ 64)%N ->
  haifa_out LOBB 64 16 (db / 8) (haifa_reset db blake2b_iv) (skipping blake2b_process_block lostN) 0xFFFFFFFFFFFFFFFF ic M =
  BLAKE2b_without lost (db / 8) M.
Proof.
  intros Hs. unfold haifa_out, BLAKE2b_without. cbv zeta.
  change (64 * 16) with 1024.
  destruct (absorb_without (chunks 1024 M) (haifa_reset db blake2b_iv) 0) as [EA KA].
  { apply h0_ok; auto. }
  { rewrite chunks_length. pose proof (Nat.mul_div_le (length M) 1024). lia. }
  { apply chunks_Forall. lia. }
  change (N.of_nat (0 * 1024)) with 0%N in EA.
  change (absorbed E M) with (absorb E (haifa_reset db blake2b_iv) 0%N (chunks 1024 M)). rewrite EA.
  set (h := non_final_without lost (haifa_reset db blake2b_iv) 0 (map words_of_block (chunks 1024 M))) in *.
  assert (Hr : length M mod 1024 < 1024) by (apply Nat.mod_upper_bound; lia).
  assert (EL : exists b, length b = 1024 /\ (if (length M mod 1024 =? 0) && negb (length M =? 0)
      then last (chunks 1024 M) [] else skipn (1024 * (length M / 1024)) M ++ repeat false (1024 - length M mod 1024)) = b /\
    (if (length M mod 1024 =? 0) && negb (length M =? 0) then skipn (length M - 1024) M
     else skipn (length M - length M mod 1024) M ++ repeat false (1024 - length M mod 1024)) = b).
  { destruct ((length M mod 1024 =? 0) && negb (length M =? 0)) eqn:B.
    - apply andb_true_iff in B. destruct B as [B1 B2]. apply Nat.eqb_eq in B1. apply negb_true_iff in B2. apply Nat.eqb_neq in B2.
      assert (length M >= 1024) by lia.
      exists (skipn (length M - 1024) M). split; [rewrite skipn_length; lia|]. split; [|reflexivity].
      rewrite <- (firstn_skipn (length M - 1024) M) at 1.
      rewrite chunks_snoc.
      + apply last_last.
      + lia.
      + rewrite firstn_length, Nat.min_l by lia. lia.
      + rewrite skipn_length. lia.
    - exists (skipn (length M - length M mod 1024) M ++ repeat false (1024 - length M mod 1024)). split; [|split; [|reflexivity]].
      + rewrite app_length, skipn_length, repeat_length. lia.
      + do 2 f_equal. pose proof (Nat.div_mod (length M) 1024). lia. }
  destruct EL as (b & Lb & -> & ->). rewrite block_words by exact Lb.
  unfold skipping. change ((18446744073709551615 =? 0)%N) with false. cbn [andb].
  destruct (process_block_bits h (words_of_block b) (blen M) true KA Hs) as [EF _].
  change (flag true) with 0xFFFFFFFFFFFFFFFF%N in EF. rewrite EF, (pack_le 8) by lia.
  assert (En : ((blen M + 7) / 8 = N.of_nat ((length M + 7) / 8))%N) by (unfold blen; lia).
  rewrite En. reflexivity.
Qed.
End Digest.

Lemma b_every db ic inj junk (fs : list feed) :
  let bits := fun f => match f with
                       | FBlock v n => firstn (if n =? 0 then 64 * 16 else n) (stream LOBB 64 v)
                       | FWord x n => firstn (if n =? 0 then 64 else n) (word_stream LOBB 64 x) end in
  db mod 8 = 0 /\ 0 < db <= 512 -> injector_contract LOBB 64 16 ic -> injector_contract LOBB 64 16 inj -> block_ok 64 16 junk ->
  Forall (fun f => match f with
                   | FBlock v n => block_ok 64 16 v /\ n <= 64 * 16
                   | FWord x n => fits 64 x /\ n <= 64 end) fs ->
  (N.of_nat (length (flat_map bits fs)) < 2 ^ 64)%N ->
  exists a, acc_feeds (blake2b ic db) inj (acc_init (blake2b ic db) junk) fs = Some a /\
    total a = N.of_nat (length (flat_map bits fs)) /\
    acc_result (blake2b ic db) a = Some (BLAKE2b_without (forgotten 64 (64 * 16) bits 0 fs) (db / 8) (flat_map bits fs)).
Proof.
  intros bits [H8 Hdb] HIc HI Hj HF Hs.
  set (lost := forgotten 64 (64 * 16) bits 0 fs).
  set (E := haifa_construction LOBB 64 16 (db / 8) (haifa_reset db blake2b_iv) (skipping blake2b_process_block (lostN lost))
                 (blake2b_padding ic 64 16) 0xFFFFFFFFFFFFFFFF).
  assert (WE : wf_construction E) by (constructor; [reflexivity|apply Nat.ltb_lt; reflexivity..]).
  destruct (lossy_feeds_E LOBB 64 16 (db / 8) (haifa_reset db blake2b_iv) blake2b_process_block
     (blake2b_padding ic 64 16) 0xFFFFFFFFFFFFFFFF inj ltac:(reflexivity) ltac:(lia) ltac:(lia) HI ltac:(discriminate) (lostN lost) fs
     (acc_init (blake2b ic db) junk) []) as (a & X & R).
  - apply (flush_spec E WE). apply (init_strict E WE junk). exact Hj.
  - intros _. apply (strict_weak E). apply (init_strict E WE junk). exact Hj.
  - exact HF.
  - exact Hs.
  - discriminate.
  - intros c Hc. unfold lostN. rewrite Nnat.Nat2N.id. reflexivity.
  - cbn [app] in R. exists a. split; [exact X|].
    assert (Ht : total a = N.of_nat (length (flat_map bits fs))).
    { destruct R as (M0 & T & Es & R & _). destruct R as [Ht _ _ _ _ _ _]. rewrite <- Es, count_short in Ht by exact Hs. exact Ht. }
    split; [exact Ht|].
    assert (Hl : lostN lost (total a) = false).
    { unfold lostN. rewrite Ht, Nnat.Nat2N.id. destruct (existsb _ _) eqn:Y; [|reflexivity].
      apply existsb_exists in Y. destruct Y as (i & Hi & Y). apply Nat.eqb_eq in Y.
      apply (lost_before 64 16 LOBB (db / 8) (haifa_reset db blake2b_iv) blake2b_process_block (blake2b_padding ic 64 16)
               0xFFFFFFFFFFFFFFFF ltac:(lia) ltac:(lia) fs HF 0 i) in Hi.
      change (64 * 16) with 1024 in Hi. change (flat_map (feed_bits _) fs) with (flat_map bits fs) in Hi. lia. }
    unfold blake2b. rewrite (result_agree LOBB 64 16 (db / 8) (haifa_reset db blake2b_iv) blake2b_process_block
      (blake2b_padding ic 64 16) 0xFFFFFFFFFFFFFFFF eq_refl ltac:(lia) ltac:(lia) ltac:(discriminate) (lostN lost) a Hl).
    change (flat_map (feed_bits _) fs) with (flat_map bits fs) in R.
    rewrite (haifa_digest_correct LOBB 64 16 (db / 8) (haifa_reset db blake2b_iv) (skipping blake2b_process_block (lostN lost))
      0xFFFFFFFFFFFFFFFF ic ltac:(reflexivity) ltac:(lia) ltac:(lia) HIc _ (flat_map bits fs) R Hs I).
    f_equal. now apply without_out.
Qed.

(** When nothing is forgotten the specification is the earlier one. *)
Lemma absorb_pointwise e w bw db init comp comp' padding salt bs :
  (forall s b c f, comp s b c f = comp' s b c f) -> forall s c,
  absorb (haifa_construction e w bw db init comp padding salt) s c bs =
  absorb (haifa_construction e w bw db init comp' padding salt) s c bs.
Proof.
  intros H. induction bs as [|b bs IH]; intros s c; [reflexivity|].
  cbn [absorb c_proc haifa_construction]. rewrite H. apply IH.
Qed.

Lemma out_pointwise e w bw db init comp comp' salt ic M :
  (forall s b c f, comp s b c f = comp' s b c f) ->
  haifa_out e w bw db init comp salt ic M = haifa_out e w bw db init comp' salt ic M.
Proof.
  intros H. unfold haifa_out, absorbed. cbv zeta. rewrite H. now rewrite (absorb_pointwise e w bw db init comp comp' _ _ _ H).
Qed.

Lemma without_nothing db M : db mod 8 = 0 /\ 0 < db <= 512 -> (N.of_nat (length M) < 2 ^ 64)%N ->
  BLAKE2b_without [] (db / 8) M = BLAKE2b_bits_observed (db / 8) M.
Proof.
  intros [H8 Hdb] Hs.
  assert (HI : injector_contract LOBB 64 16 (inj_keep LOBB 64 16)) by (apply inj_keep_contract; cbn; lia).
  rewrite <- (without_out (inj_keep LOBB 64 16) db Hdb H8 []) by exact Hs.
  rewrite <- (blake2b_out_bits (inj_keep LOBB 64 16) db Hdb H8) by exact Hs.
  apply out_pointwise. intros. unfold skipping. cbn [lostN existsb]. now rewrite andb_false_r.
Qed.

(** A block, then sixteen words that complete another one, which is forgotten once a last word follows. *)
Lemma forgetful_blake :
  let bits := fun f => match f with
                       | FBlock v n => firstn (if n =? 0 then 64 * 16 else n) (stream LOBB 64 v)
                       | FWord x n => firstn (if n =? 0 then 64 else n) (word_stream LOBB 64 x) end in
  let fs := FBlock (map N.of_nat (seq 1 16)) 0 :: map (fun i => FWord (N.of_nat i) 0) (seq 1 16) ++ [FWord 0x12345678%N 8] in
  Forall (fun f => match f with FBlock v n => block_ok 64 16 v /\ n <= 64 * 16 | FWord x n => fits 64 x /\ n <= 64 end) fs /\
  length (flat_map bits fs) = 2056 /\ forgotten 64 (64 * 16) bits 0 fs = [1] /\
  forgotten 64 (64 * 16) bits 0 (removelast fs) = [].
Proof.
  intros bits fs. split; [|split; [|split]]; [|vm_compute; reflexivity..].
  apply Forall_cons; [|apply Forall_app; split].
  - split; [|apply Nat.leb_le; reflexivity]. split; [reflexivity|].
    apply Forall_map, Forall_forall. intros i Hi. apply in_seq in Hi.
    unfold fits. apply N.lt_trans with 17%N; [|reflexivity]. destruct Hi as [_ Hi]. change (1 + 16) with 17 in Hi. lia.
  - apply Forall_map, Forall_forall. intros i Hi. apply in_seq in Hi. split; [|apply Nat.leb_le; reflexivity].
    unfold fits. apply N.lt_trans with 17%N; [|reflexivity]. destruct Hi as [_ Hi]. change (1 + 16) with 17 in Hi. lia.
  - apply Forall_cons; [|apply Forall_nil]. split; [vm_compute; reflexivity|apply Nat.leb_le; reflexivity].
Qed.
