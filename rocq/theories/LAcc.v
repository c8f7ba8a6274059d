(** Refinement of the accumulator to the bit string fed so far. *)
From Coq Require Import NArith Arith List Bool Lia ZifyBool ZifyNat ZifyN ZArith.
From Verif Require Import SpecStream LStream MPack LInj MAcc.
Import ListNotations.
Ltac Zify.zify_post_hook ::= Z.div_mod_to_equations.

Definition blen (M : list bool) : N := N.of_nat (length M).
Definition short (M : list bool) : Prop := (blen M < 2 ^ 64)%N.

Lemma wrap64_small x : (x < 2 ^ 64)%N -> wrap64 x = x.
Proof. intros. unfold wrap64. apply N.mod_small. exact H. Qed.
Lemma wrap64_add x y : wrap64 (wrap64 x + y) = wrap64 (x + y).
Proof. unfold wrap64. apply N.add_mod_idemp_l. apply N.pow_nonzero. discriminate. Qed.
(** The counter after a message. *)
Definition count (M : list bool) : N := wrap64 (blen M).
Lemma count_short M : short M -> count M = blen M.
Proof. apply wrap64_small. Qed.
Lemma count_app M S : wrap64 (count M + N.of_nat (length S)) = count (M ++ S).
Proof. unfold count. rewrite wrap64_add. unfold blen. rewrite app_length, Nnat.Nat2N.inj_add. reflexivity. Qed.
Lemma short_prefix A B : short (A ++ B) -> short A.
Proof. unfold short, blen. rewrite app_length. lia. Qed.

Record wf_construction (C : construction) : Prop := {
  wf_w8 : c_word C mod 8 = 0;
  wf_w : 0 < c_word C;
  wf_bw : 0 < c_words C }.

Section Refine.
Context (C : construction) (inj : injector).
Context (WF : wf_construction C).
Notation e := (c_endian C).
Notation w := (c_word C).
Notation bw := (c_words C).
Notation bb := (block_bits C).
Context (HI : injector_contract e w bw inj).

Lemma bb_pos : 0 < bb.
Proof. unfold block_bits. destruct WF. nia. Qed.

(** Running the construction over whole blocks, with the running bit counter. *)
Fixpoint absorb (s : c_state C) (cnt : N) (bs : list (list bool)) : c_state C :=
  match bs with
  | [] => s
  | b :: bs' => absorb (c_proc C s (words_of_stream e w b) (wrap64 (cnt + N.of_nat bb)))
                       (cnt + N.of_nat bb)%N bs'
  end.

Lemma absorb_app s cnt a b :
  absorb s cnt (a ++ b) = absorb (absorb s cnt a) (cnt + N.of_nat (bb * length a))%N b.
Proof.
  revert s cnt; induction a as [|x a IH]; intros s cnt; cbn [absorb app length].
  - f_equal. lia.
  - rewrite IH. f_equal. lia.
Qed.

Definition absorbed (M : list bool) : c_state C := absorb (c_init C) 0%N (chunks bb M).

Lemma absorbed_snoc M0 T : length M0 mod bb = 0 -> length T = bb ->
  absorbed (M0 ++ T) =
  c_proc C (absorbed M0) (words_of_stream e w T) (count (M0 ++ T)).
Proof.
  intros H0 HT. pose proof bb_pos.
  unfold absorbed. rewrite chunks_snoc, absorb_app by auto.
  cbn [absorb]. f_equal. unfold count, blen. rewrite chunks_length, app_length. f_equal.
  assert (bb * (length M0 / bb) = length M0) by (symmetry; apply Nat.div_exact; lia).
  lia.
Qed.

(** The state a history of feeds leads to.  [T] is the part of the message still in the cache.
    [strict]: a complete pending block is flagged by [filled]. *)
Record refines (a : acc C) (M0 T : list bool) : Prop := {
  rf_total : total a = count (M0 ++ T);
  rf_cache : block_ok w bw (cache a);
  rf_M0 : length M0 mod bb = 0;
  rf_T : length T <= bb;
  rf_nil : T = [] -> M0 = [];
  rf_head : firstn (length T) (stream e w (cache a)) = T;
  rf_state : cst a = absorbed M0 }.

Definition weakR (a : acc C) (M : list bool) : Prop :=
  exists M0 T, M = M0 ++ T /\ refines a M0 T /\ (filled a = true -> length T = bb).
Definition strictR (a : acc C) (M : list bool) : Prop :=
  exists M0 T, M = M0 ++ T /\ refines a M0 T /\ (filled a = true <-> length T = bb).

Lemma strict_weak a M : strictR a M -> weakR a M.
Proof. intros (M0 & T & ? & ? & ?). exists M0, T. intuition. Qed.

Lemma init_strict junk : block_ok w bw junk -> strictR (acc_init C junk) [].
Proof.
  intros Hj. pose proof bb_pos. exists [], []. split; [reflexivity|]. split.
  - constructor; auto; simpl; try lia; [apply Nat.mod_0_l; lia| ].
    unfold absorbed. now rewrite chunks_nil.
  - simpl. split; [discriminate|lia].
Qed.

(** The counter gives the number of pending bits: it has not wrapped around, or blocks divide it. *)
Definition fine (M : list bool) : Prop := short M \/ (2 ^ 64 mod N.of_nat bb = 0)%N.
Lemma fine_prefix A B : fine (A ++ B) -> fine A.
Proof. intros [H|H]; [left; now apply short_prefix in H|right; exact H]. Qed.

(** After [flush]: a whole number of absorbed blocks, and a strictly partial pending part. *)
Definition flushedR (a : acc C) (M : list bool) : Prop :=
  exists M0 T, M = M0 ++ T /\ total (flush C a) = count M /\ block_ok w bw (cache (flush C a)) /\
    length M0 mod bb = 0 /\ length T < bb /\
    firstn (length T) (stream e w (cache (flush C a))) = T /\
    cst (flush C a) = absorbed M0 /\ filled (flush C a) = false.
Lemma flush_spec a M : strictR a M -> flushedR a M.
Proof.
  intros (M0 & T & -> & R & F). destruct R. pose proof bb_pos.
  unfold flushedR, flush. destruct (filled a) eqn:Ef.
  - assert (HT : length T = bb) by (now apply F).
    exists (M0 ++ T), []. rewrite app_nil_r. cbn.
    repeat split; auto; try (apply rf_cache0); try lia.
    + rewrite app_length, HT. rewrite <- Nat.add_mod_idemp_l, rf_M1 by lia. simpl. apply Nat.mod_same. lia.
    + rewrite absorbed_snoc by auto. rewrite rf_state0. f_equal; [|exact rf_total0].
      rewrite <- rf_head0, HT.
      rewrite firstn_all2 by (rewrite (block_stream_length _ w bw) by auto; unfold block_bits; lia).
      symmetry. apply (block_words_stream e w bw); try apply WF; auto.
  - exists M0, T. repeat split; auto; try apply rf_cache0.
    destruct (Nat.eq_dec (length T) bb) as [E|E]; [|lia].
    apply F in E. congruence.
Qed.

Lemma count_mod M : fine M -> (count M mod N.of_nat bb = blen M mod N.of_nat bb)%N.
Proof.
  intros [H|H]; [now rewrite count_short|]. pose proof bb_pos as Hb. unfold count, wrap64.
  apply N.div_exact in H; [|lia]. rewrite H.
  assert (Hk : (2 ^ 64 / N.of_nat bb <> 0)%N) by (intros E; rewrite E, N.mul_0_r in H; discriminate H).
  rewrite N.mod_mul_r by lia.
  rewrite N.add_mod, (N.mul_comm (N.of_nat bb)), N.mod_mul, N.add_0_r by lia.
  rewrite N.mod_mod by lia. apply N.mod_mod. lia.
Qed.

Lemma cached_spec (a : acc C) M0 T : fine (M0 ++ T) -> total a = count (M0 ++ T) -> length M0 mod bb = 0 -> length T < bb ->
  cached_bits C a = length T.
Proof.
  intros Hf Ht H0 HT. unfold cached_bits. rewrite Ht, count_mod by exact Hf. unfold blen. rewrite app_length.
  rewrite <- Nnat.Nat2N.inj_mod, Nnat.Nat2N.id.
  rewrite <- Nat.add_mod_idemp_l, H0 by lia. simpl. apply Nat.mod_small. auto.
Qed.

(** The common appending code. *)
Lemma append_bits_spec a M0 T src n :
  total a = count (M0 ++ T) -> block_ok w bw (cache a) -> length M0 mod bb = 0 ->
  0 < length T < bb -> firstn (length T) (stream e w (cache a)) = T ->
  cst a = absorbed M0 -> filled a = false ->
  Forall (fits w) src -> length src <= bw -> 0 < n <= w * length src ->
  fine (M0 ++ T ++ firstn n (stream e w src)) ->
  exists a', append_bits C inj a src n = Some a' /\
             strictR a' (M0 ++ T ++ firstn n (stream e w src)).
Proof.
  intros Ht Hc H0 HT Hh Hs Hf Hsrc Hlsrc Hn Hshort. pose proof bb_pos as Hbb.
  pose proof (wf_w8 C WF) as W8. pose proof (wf_w C WF) as Wp.
  assert (Hbw : bb = w * bw) by reflexivity.
  assert (Hfine : fine (M0 ++ T)) by (rewrite app_assoc in Hshort; now apply fine_prefix in Hshort).
  unfold append_bits. rewrite (cached_spec a M0 T) by (auto; lia).
  set (m := if n <? bb - length T then n else bb - length T).
  assert (Hm : m = n /\ n < bb - length T \/ m = bb - length T /\ bb - length T <= n).
  { unfold m. destruct (n <? bb - length T) eqn:E; lia. }
  assert (Lsrc : length (stream e w src) = w * length src) by apply stream_length.
  destruct (inject_some e w bw inj W8 Wp HI src m (cache a) (length T) 0) as (c1 & E1 & Hc1 & Hh1);
    auto; try (destruct Hm; lia).
  rewrite E1. rewrite Hh in Hh1. simpl skipn in Hh1.
  set (S := stream e w src) in *.
  assert (Lm : length (firstn m S) = m) by (rewrite firstn_length; destruct Hm; lia).
  destruct (length T + m =? bb) eqn:Efull.
  - assert (m = bb - length T /\ bb - length T <= n) as [Hm1 Hm2] by lia.
    assert (Hc1T : stream e w c1 = T ++ firstn m S).
    { rewrite <- Hh1. rewrite firstn_all2; auto. rewrite (block_stream_length e w bw) by auto. lia. }
    assert (LTm : length (T ++ firstn m S) = bb) by (rewrite app_length; lia).
    assert (E2 : wrap64 (total a + N.of_nat m) = count (M0 ++ T ++ firstn m S)).
    { rewrite Ht, app_assoc, <- (count_app (M0 ++ T) (firstn m S)), Lm. reflexivity. }
    rewrite E2.
    destruct (m <? n) eqn:Emn.
    + destruct (inject_some e w bw inj W8 Wp HI src (n - m) c1 0 m) as (c2 & E3 & Hc2 & Hh2); auto; try nia.
      rewrite E3. eexists. split; [reflexivity|].
      simpl firstn in Hh2 at 2. fold S in Hh2. simpl app in Hh2. rewrite Nat.add_0_l in Hh2.
      assert (Hsplit : firstn n S = firstn m S ++ firstn (n - m) (skipn m S)).
      { rewrite <- (firstn_skipn m S) at 1.
        rewrite firstn_app, Lm, firstn_all2 by lia. reflexivity. }
      assert (Lr : length (firstn (n - m) (skipn m S)) = n - m).
      { rewrite firstn_length, skipn_length. lia. }
      exists (M0 ++ T ++ firstn m S), (firstn (n - m) (skipn m S)).
      split. { rewrite Hsplit. now rewrite <- !app_assoc. }
      split.
      * constructor; cbn [filled total cache cst]; auto.
        -- rewrite <- (count_app (M0 ++ T ++ firstn m S)), Lr. reflexivity.
        -- rewrite app_length, LTm, <- Nat.add_mod_idemp_l, H0 by lia. simpl. apply Nat.mod_same. lia.
        -- rewrite Lr. nia.
        -- intros Z. rewrite Z in Lr. simpl in Lr. lia.
        -- rewrite Lr. exact Hh2.
        -- rewrite absorbed_snoc by auto. rewrite Hs. f_equal.
           rewrite <- Hc1T. symmetry. apply (block_words_stream e w bw); auto.
      * cbn [filled total cache cst]. rewrite Lr. split; [discriminate|]. nia.
    + eexists. split; [reflexivity|].
      assert (Hmn : m = n) by lia. rewrite <- Hmn.
      exists M0, (T ++ firstn m S). split; [reflexivity|]. split.
      * constructor; cbn [filled total cache cst]; auto; try lia.
        -- intros Z. rewrite Z in LTm. simpl in LTm. lia.
        -- rewrite Hc1T. apply firstn_all.
      * cbn [filled total cache cst]. tauto.
  - assert (m = n /\ n < bb - length T) as [Hm1 Hm2] by lia.
    eexists. split; [reflexivity|]. rewrite <- Hm1.
    exists M0, (T ++ firstn m S). split; [reflexivity|].
    assert (LTm : length (T ++ firstn m S) = length T + m) by (rewrite app_length; lia).
    split.
    + constructor; cbn [filled total cache cst]; auto; try lia.
      * rewrite Ht, app_assoc, <- (count_app (M0 ++ T) (firstn m S)), Lm. reflexivity.
      * intros Z. rewrite Z in LTm. simpl in LTm. lia.
      * rewrite LTm. exact Hh1.
    + cbn. rewrite Hf, LTm. split; [discriminate|lia].
Qed.

Lemma firstn_words k v d :
  block_ok w bw v -> block_ok w bw d -> k <= bw ->
  block_ok w bw (firstn k v ++ skipn k d).
Proof.
  intros [L1 F1] [L2 F2] Hk. split.
  - rewrite app_length, firstn_length, skipn_length. lia.
  - apply Forall_app. split.
    + apply Forall_forall. intros x Hx. eapply Forall_forall; [exact F1|].
      rewrite <- (firstn_skipn k v). apply in_or_app. auto.
    + apply Forall_forall. intros x Hx. eapply Forall_forall; [exact F2|].
      rewrite <- (firstn_skipn k d). apply in_or_app. auto.
Qed.

Lemma words_for_spec n : 0 < n < bb -> n <= w * words_for C n /\ words_for C n <= bw.
Proof.
  intros Hn. unfold words_for. pose proof (wf_w C WF).
  assert (E : n = w * (n / w) + n mod w) by (apply Nat.div_mod; lia).
  assert (L : n mod w < w) by (apply Nat.mod_upper_bound; lia).
  unfold block_bits in Hn.
  destruct (n mod w =? 0) eqn:Ez; [apply Nat.eqb_eq in Ez|apply Nat.eqb_neq in Ez]; nia.
Qed.

Lemma block_feed_flushed a M v n :
  flushedR a M -> block_ok w bw v -> n <= bb ->
  let n' := if n =? 0 then bb else n in
  fine (M ++ firstn n' (stream e w v)) ->
  exists a', acc_feed C inj a (FBlock v n) = Some a' /\
             strictR a' (M ++ firstn n' (stream e w v)).
Proof.
  intros HR Hv Hn n' Hshort. pose proof bb_pos as Hbb.
  assert (Hn' : 0 < n' <= bb) by (unfold n'; destruct (n =? 0) eqn:E; lia).
  cbn [acc_feed]. change (if n =? 0 then bb else n) with n'.
  clearbody n'. clear n Hn.
  destruct HR as (M0 & T & -> & Ht & Hc & H0 & HT & Hh & Hs & Hf).
  unfold process_block_value. set (a1 := flush C a) in *.
  assert (Hfine : fine (M0 ++ T)) by now apply fine_prefix in Hshort.
  rewrite (cached_spec a1 M0 T) by auto.
  rewrite <- app_assoc in Hshort |- *.
  destruct Hv as [Lv Fv].
  destruct (length T =? 0) eqn:ET; cbn [negb].
  - apply Nat.eqb_eq in ET. destruct T; [|discriminate]. rewrite app_nil_r in *. clear ET HT Hh.
    simpl app in Hshort |- *.
    assert (Lf : length (firstn n' (stream e w v)) = n').
    { rewrite firstn_length, (block_stream_length e w bw) by (split; auto).
      unfold block_bits in Hn'. lia. }
    assert (E2 : wrap64 (total a1 + N.of_nat n') = count (M0 ++ firstn n' (stream e w v))).
    { rewrite Ht, <- (count_app M0 (firstn n' (stream e w v))), Lf. reflexivity. }
    rewrite E2. destruct (n' =? bb) eqn:En.
    + apply Nat.eqb_eq in En. eexists. split; [reflexivity|].
      exists M0, (firstn n' (stream e w v)). split; [reflexivity|]. split.
      * constructor; cbn [filled total cache cst]; auto; try lia.
        -- split; auto.
        -- intros Z. rewrite Z in Lf. simpl in Lf. lia.
        -- now rewrite Lf.
      * cbn [filled total cache cst]. rewrite Lf. tauto.
    + apply Nat.eqb_neq in En.
      destruct (words_for_spec n') as [K1 K2]; [lia|].
      destruct (words_for C n' <=? bw) eqn:Ek; [|lia].
      eexists. split; [reflexivity|].
      exists M0, (firstn n' (stream e w v)). split; [reflexivity|]. split.
      * constructor; cbn [filled total cache cst]; auto; try lia.
        -- apply firstn_words; auto. split; auto.
        -- intros Z. rewrite Z in Lf. simpl in Lf. lia.
        -- rewrite Lf, stream_app, firstn_stream_app.
           2:{ rewrite stream_length, firstn_length, Nat.min_l by lia. lia. }
           rewrite <- stream_firstn, firstn_firstn. f_equal. lia.
      * cbn [filled total cache cst]. rewrite Hf, Lf. split; [discriminate|lia].
  - apply Nat.eqb_neq in ET.
    apply append_bits_spec; auto; try (rewrite Lv; auto; fail); lia.
Qed.

Lemma block_feed_spec a M v n :
  strictR a M -> block_ok w bw v -> n <= bb ->
  let n' := if n =? 0 then bb else n in
  fine (M ++ firstn n' (stream e w v)) ->
  exists a', acc_feed C inj a (FBlock v n) = Some a' /\
             strictR a' (M ++ firstn n' (stream e w v)).
Proof. intros HR. apply block_feed_flushed. now apply flush_spec. Qed.

(** The unaligned branch of the word overload. *)
Lemma upd_block k x d : block_ok w bw d -> fits w x -> k < bw ->
  block_ok w bw (firstn k d ++ x :: skipn (S k) d).
Proof.
  intros [L F] Hx Hk. split.
  - rewrite app_length. cbn [length]. rewrite firstn_length, skipn_length. lia.
  - apply Forall_app. split.
    + apply Forall_forall. intros y Hy. eapply Forall_forall; [exact F|].
      rewrite <- (firstn_skipn k d). apply in_or_app. auto.
    + constructor; auto. apply Forall_forall. intros y Hy. eapply Forall_forall; [exact F|].
      rewrite <- (firstn_skipn (S k) d). apply in_or_app. auto.
Qed.

Lemma word_feed_flushed a M x n :
  flushedR a M -> fits w x -> n <= w ->
  let n' := if n =? 0 then w else n in
  fine (M ++ firstn n' (word_stream e w x)) ->
  exists a', acc_feed C inj a (FWord x n) = Some a' /\
             weakR a' (M ++ firstn n' (word_stream e w x)) /\
             ((length M + n') mod bb <> 0 \/ length M mod w <> 0 ->
              strictR a' (M ++ firstn n' (word_stream e w x))).
Proof.
  intros HR Hx Hn n' Hshort. pose proof bb_pos as Hbb. pose proof (wf_w C WF) as Wp.
  assert (Hn' : 0 < n' <= w) by (unfold n'; destruct (n =? 0) eqn:E; lia).
  cbn [acc_feed]. change (if n =? 0 then w else n) with n'.
  clearbody n'. clear n Hn.
  destruct HR as (M0 & T & -> & Ht & Hc & H0 & HT & Hh & Hs & Hf).
  unfold process_word_value. set (a1 := flush C a) in *.
  assert (Hfine : fine (M0 ++ T)) by now apply fine_prefix in Hshort.
  rewrite (cached_spec a1 M0 T) by auto.
  rewrite <- app_assoc in Hshort |- *.
  assert (Wbw : bb = w * bw) by reflexivity.
  assert (Sx : stream e w [x] = word_stream e w x) by (unfold stream; simpl; apply app_nil_r).
  destruct (length T mod w =? 0) eqn:ET; cbn [negb].
  - apply Nat.eqb_eq in ET.
    assert (Ek : length T = w * (length T / w)) by (apply Nat.div_exact; lia).
    set (k := length T / w) in *.
    assert (Hk : k < bw) by nia.
    assert (Lf : length (firstn n' (word_stream e w x)) = n').
    { rewrite firstn_length, word_stream_length. lia. }
    eexists. split; [reflexivity|].
    set (a' := Mk_acc _ _ _ _).
    assert (R : refines a' M0 (T ++ firstn n' (word_stream e w x))).
    { constructor; unfold a'; cbn [filled total cache cst]; auto.
      - rewrite Ht, app_assoc, <- (count_app (M0 ++ T)), Lf. reflexivity.
      - apply upd_block; auto.
      - rewrite app_length, Lf. nia.
      - intros Z. apply (f_equal (@length bool)) in Z. rewrite app_length, Lf in Z. simpl in Z. lia.
      - rewrite app_length, Lf. rewrite stream_app, <- stream_firstn, <- Ek, Hh, stream_cons.
        rewrite app_assoc, firstn_stream_app by (rewrite app_length, word_stream_length; lia).
        rewrite firstn_app. rewrite firstn_all2 by lia. f_equal. f_equal. lia. }
    split.
    + exists M0, (T ++ firstn n' (word_stream e w x)). split; [reflexivity|]. split; [exact R|].
      cbn. rewrite Hf. discriminate.
    + intros Hcond. exists M0, (T ++ firstn n' (word_stream e w x)). split; [reflexivity|].
      split; [exact R|]. cbn. rewrite Hf. split; [discriminate|]. intros Hl.
      exfalso. rewrite app_length, Lf in Hl. rewrite app_length in Hcond.
      destruct Hcond as [Hcond|Hcond]; apply Hcond.
      * replace (length M0 + length T + n') with (length M0 + bb) by lia.
        rewrite <- Nat.add_mod_idemp_l, H0 by lia. simpl. apply Nat.mod_same. lia.
      * rewrite <- Nat.add_mod_idemp_r, ET, Nat.add_0_r by lia.
        assert (Hd : length M0 = bb * (length M0 / bb)) by (apply Nat.div_exact; lia).
        rewrite Hd, Wbw, <- Nat.mul_assoc, Nat.mul_comm, Nat.mod_mul; lia.
  - apply Nat.eqb_neq in ET.
    assert (T <> []).
    { intros ->. simpl in ET. rewrite Nat.mod_0_l in ET; lia. }
    assert (0 < length T) by (destruct T; [congruence|simpl; lia]).
    rewrite <- Sx. rewrite <- Sx in Hshort.
    destruct (append_bits_spec a1 M0 T [x] n') as (a' & E & R'); auto; try lia.
    + pose proof (wf_bw C WF). simpl length. lia.
    + simpl length. lia.
    + exists a'. split; [exact E|]. split; [now apply strict_weak|auto].
Qed.

Lemma word_feed_spec a M x n :
  strictR a M -> fits w x -> n <= w ->
  let n' := if n =? 0 then w else n in
  fine (M ++ firstn n' (word_stream e w x)) ->
  exists a', acc_feed C inj a (FWord x n) = Some a' /\
             weakR a' (M ++ firstn n' (word_stream e w x)) /\
             ((length M + n') mod bb <> 0 \/ length M mod w <> 0 ->
              strictR a' (M ++ firstn n' (word_stream e w x))).
Proof. intros HR. apply word_feed_flushed. now apply flush_spec. Qed.
End Refine.

Lemma short_fine C M : short M -> fine C M.
Proof. now left. Qed.
#[global] Hint Resolve short_fine : core.
