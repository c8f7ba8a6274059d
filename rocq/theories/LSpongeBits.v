(** Digests of the sponge hashes for messages of any number of bits: proofs. *)
From Coq Require Import NArith Arith List Bool Lia ZifyBool ZifyNat ZifyN ZArith.
From Verif Require Import SpecStream LStream SpecOctets MPack LInj MAcc LAcc LBsp MConstr LMD LMDProps SpecFeeds LFeeds LFeedsStmt.
From Verif Require Import SpecKeccak MKeccak LKeccakP SpecSponge LSponge LSpongeStmt SpecSpongeBits.
Import ListNotations.
Ltac Zify.zify_post_hook ::= Z.div_mod_to_equations.
#[local] Opaque keccak_words keccak_f.

Lemma firstn_add {T} n m (l : list T) : firstn (n + m) l = firstn n l ++ firstn m (skipn n l).
Proof.
  revert l. induction n as [|n IH]; intros l; [reflexivity|]. destruct l as [|x l]; [now destruct m|].
  cbn [Nat.add firstn skipn app]. f_equal. apply IH.
Qed.

Lemma nth_firstn_lt {T} (dflt : T) n i l : i < n -> nth i (firstn n l) dflt = nth i l dflt.
Proof.
  revert i l. induction n as [|n IH]; intros i l Hi; [lia|]. destruct l as [|x l]; [now destruct i|].
  destruct i as [|i]; [reflexivity|]. cbn [firstn nth]. apply IH. lia.
Qed.
Lemma nth_skipn {T} (dflt : T) n i l : nth i (skipn n l) dflt = nth (n + i) l dflt.
Proof.
  revert l. induction n as [|n IH]; intros l; [reflexivity|]. destruct l as [|x l]; [now destruct i|]. cbn [skipn Nat.add nth]. apply IH.
Qed.

Lemma taken bw M1 T block : length M1 mod 8 = 0 -> block_ok 64 bw block -> length T <= 64 * bw ->
  firstn (length T) (stream BOBB 64 block) = T ->
  taken_for (M1 ++ T) (lsb M1 ++ firstn (length T) (stream BOLB 64 block)).
Proof.
  intros HM Hb HT Hh. unfold taken_for. cbv zeta. rewrite app_length.
  set (k := length T / 8). set (r := length T mod 8).
  assert (ET : length T = 8 * k + r) by (unfold k, r; lia).
  assert (Hr : r < 8) by (unfold r; lia).
  assert (E1 : (length M1 + length T) / 8 = length M1 / 8 + k) by (unfold k; lia).
  assert (E2 : (length M1 + length T) mod 8 = r) by (unfold r; lia).
  rewrite E1, E2. clearbody k r.
  assert (LB : length (stream BOBB 64 block) = 64 * bw) by now apply block_stream_length.
  assert (Ew : firstn (8 * (length M1 / 8 + k)) (M1 ++ T) = M1 ++ firstn (8 * k) T).
  { rewrite firstn_app, firstn_all2 by lia. do 2 f_equal. lia. }
  assert (E8 : firstn (8 * k) (stream BOBB 64 block) = firstn (8 * k) T).
  { rewrite <- Hh, firstn_firstn. f_equal. lia. }
  assert (L8 : length (firstn (8 * k) T) = 8 * k) by (rewrite firstn_length; lia).
  exists (bits_octets (M1 ++ firstn (8 * k) T)), (firstn r (skipn (8 * k) (stream BOLB 64 block))).
  split; [apply words_of_stream_fits|]. split; [|split; [|split]].
  - rewrite Ew. apply stream_words_of_stream; [reflexivity|lia|]. rewrite app_length, L8. lia.
  - change (octets_bits_lsb (bits_octets (M1 ++ firstn (8 * k) T))) with (lsb (M1 ++ firstn (8 * k) T)).
    rewrite lsb_app by exact HM. rewrite <- app_assoc. f_equal. rewrite ET, firstn_add. f_equal.
    rewrite stream_BOLB by (reflexivity || lia). rewrite <- lsb_firstn by lia. now rewrite E8.
  - rewrite firstn_length, skipn_length, (block_stream_length BOLB 64 bw) by exact Hb. lia.
  - intros i Hi H7. rewrite nth_firstn_lt by exact Hi. rewrite nth_skipn, stream_BOLB by (reflexivity || lia).
    rewrite nth_lsb by lia. rewrite app_nth2 by lia.
    replace (8 * ((8 * k + i) / 8) + (7 - (8 * k + i) mod 8)) with (8 * k + (7 - i)) by lia.
    replace (8 * (length M1 / 8 + k) + (7 - i) - length M1) with (8 * k + (7 - i)) by lia.
    rewrite <- Hh. symmetry. apply nth_firstn_lt. lia.
Qed.

Section Both.
Context (d : nat) (Hd : sponge_size d) (injb : injector) (HIb : injector_contract BOLB 64 (keccak_words d) injb).
Context (C : construction) (suffix : list bool) (HC : suffixed_hash d injb C suffix).
Notation bb := (1600 - 2 * d).

Lemma suffixed_sponge : exists H, sponge_hash d injb C H.
Proof. destruct HC as [|perm HP]; eexists; [apply SH_sha3|now apply SH_keccak]. Qed.

Lemma any_bits a M : weakR C a M -> short M ->
  (length M mod bb + length suffix + 2 <= bb -> exists s, taken_for M s /\
     acc_result C a = Some (bits_octets_lsb (keccak_sponge bb (s ++ suffix) d))) /\
  (bb < length M mod bb + length suffix + 2 -> acc_result C a = None).
Proof.
  intros HR HS. destruct (sponge_side d Hd) as (S1 & S2 & S3 & S4). pose proof (keccak_words_bits d Hd) as KB.
  assert (Fin : forall perm sfx padding plast, perm_correct perm -> length sfx + 2 <= 8 ->
    (forall b seen, block_ok 64 (keccak_words d) b -> seen + (length sfx + 2) <= 64 * keccak_words d ->
      exists b3, padding b seen = Some (b3, true) /\ block_ok 64 (keccak_words d) b3 /\
      stream BOLB 64 b3 = firstn seen (stream BOLB 64 b) ++ sfx ++ [true] ++
                        repeat false (64 * keccak_words d - 2 - (seen + length sfx)) ++ [true]) ->
    (forall b seen, seen < 64 * keccak_words d -> 64 * keccak_words d < seen + (length sfx + 2) ->
      exists b1, padding b seen = Some (b1, false) /\ plast (repeat 0%N (keccak_words d)) seen = None) ->
    let C := sponge_construction BOBB 64 (keccak_words d) (d / 8) (repeat 0%N 25) (keccak_process_block perm)
                 padding plast (keccak_finalizer perm (keccak_words d) d) in
    forall a : acc C, weakR C a M ->
    (length M mod bb + length sfx + 2 <= bb -> exists s, taken_for M s /\
       acc_result C a = Some (bits_octets_lsb (keccak_sponge bb (s ++ sfx) d))) /\
    (bb < length M mod bb + length sfx + 2 -> acc_result C a = None)).
  { clear a HR. intros perm sfx padding plast HP Hsfx Hpad Hlast C' a HR. subst C'.
    destruct (sponge_result perm HP (keccak_words d) d sfx padding plast S1 S2 S3 S4 Hsfx Hpad a M HR HS)
      as (s & M1 & T & -> & HM & HT & Hs & Es & Hb & Hh & Er).
    rewrite KB in HM, HT.
    assert (Em : length (M1 ++ T) mod bb = length T).
    { rewrite app_length, <- Nat.add_mod_idemp_l, HM by lia. apply Nat.mod_small. lia. }
    assert (HM8 : length M1 mod 8 = 0).
    { rewrite <- KB in HM. apply Nat.div_exact in HM; [|lia]. rewrite HM. rewrite <- Nat.mul_assoc. lia. }
    rewrite Em. split; intros Hf.
    - exists (lsb M1 ++ firstn (length T) (stream BOLB 64 (cache a))). split.
      + apply (taken (keccak_words d)); auto. lia.
      + etransitivity; [exact Er|]. rewrite <- KB.
        apply (sponge_finish_bits perm HP (keccak_words d) d sfx padding plast S1 S2 S3 S4 Hsfx Hpad); auto; [now rewrite KB|lia].
    - etransitivity; [exact Er|]. destruct (Hlast (cache a) (length T)) as (b1 & -> & ->); [lia|lia|reflexivity]. }
  destruct HC as [|perm HP].
  - refine (Fin permute [false; true] (sha3_padding injb 64 (keccak_words d)) (sha3_process_last injb 64 (keccak_words d))
      permute_correct _ _ _ a HR).
    + cbn [length]. lia.
    + intros b seen Hb Hs. cbn [length] in Hs |- *. apply sha3_padding_spec; auto; lia.
    + intros b seen Hs Ho. cbn [length] in Ho. unfold sha3_padding.
      destruct (3 <? 64 * keccak_words d - seen) eqn:Q; [lia|]. eexists. split; [reflexivity|].
      unfold sha3_process_last. set (ind := 3 - (64 * keccak_words d - seen)).
      destruct (inject injb 64 (keccak_words d) [low_ones ind] ind (repeat 0%N (keccak_words d)) seen 0) as [b1|]; [|reflexivity].
      unfold inject. destruct (seen + ind + (64 * keccak_words d - 1 - ind) <=? 64 * keccak_words d) eqn:Q2; [|reflexivity].
      assert (64 * keccak_words d >= 4) by lia. unfold ind in Q2. lia.
  - refine (Fin perm [] (keccak_padding injb 64 (keccak_words d)) (keccak_process_last injb 64 (keccak_words d))
      HP _ _ _ a HR).
    + cbn [length]. lia.
    + intros b seen Hb Hs. cbn [length] in Hs |- *. apply keccak_padding_spec; auto; lia.
    + intros b seen Hs Ho. cbn [length] in Ho. unfold keccak_padding.
      destruct (1 <? 64 * keccak_words d - seen) eqn:Q; [lia|]. eexists. split; [reflexivity|].
      unfold keccak_process_last, inject.
      destruct (seen + (64 * keccak_words d - 1) <=? 64 * keccak_words d) eqn:Q2; [lia|reflexivity].
Qed.

(** Any history of word and block feeds. *)
Context (inj : injector) (HI : injector_contract BOBB 64 (keccak_words d) inj).
Notation bits := (fun f => match f with
                       | FBlock v n => firstn (if n =? 0 then 64 * keccak_words d else n) (stream BOBB 64 v)
                       | FWord x n => firstn (if n =? 0 then 64 else n) (word_stream BOBB 64 x) end).
Notation fine := (fun f => match f with
                   | FBlock v n => block_ok 64 (keccak_words d) v /\ n <= 64 * keccak_words d
                   | FWord x n => fits 64 x /\ n <= 64 end).
Lemma any_history junk fs : block_ok 64 (keccak_words d) junk -> Forall fine fs ->
  (N.of_nat (length (flat_map bits fs)) < 2 ^ 64)%N ->
  let M := surviving 64 (64 * keccak_words d) bits [] fs in
  exists a, acc_feeds C inj (acc_init C junk) fs = Some a /\
    (length M mod bb + length suffix + 2 <= bb -> exists s, taken_for M s /\
       acc_result C a = Some (bits_octets_lsb (keccak_sponge bb (s ++ suffix) d))) /\
    (bb < length M mod bb + length suffix + 2 -> acc_result C a = None).
Proof.
  intros Hj HF Hs. cbv zeta. destruct suffixed_sponge as [H HH].
  destruct (both_shape d Hd injb C H HH) as (E1 & E2 & E3 & WF).
  assert (Ebb : block_bits C = 64 * keccak_words d) by (unfold block_bits; now rewrite E2, E3).
  assert (Ebits : feed_bits C = bits).
  { unfold feed_bits. rewrite E1, E2, Ebb. reflexivity. }
  assert (Hproc : forall s b x y, c_proc C s b x = c_proc C s b y) by (destruct HC; reflexivity).
  assert (HFo : Forall (feed_ok C) fs).
  { eapply Forall_impl; [|exact HF]. intros f. unfold feed_ok. rewrite Ebb, E2, E3. destruct f; tauto. }
  destruct (lossy_feeds C inj WF) with (fs := fs) (a := acc_init C junk) (k := 0) (M := @nil bool) as (a & k & E & R & Dk & F).
  - rewrite E1, E2, E3. exact HI.
  - exact Hproc.
  - apply init_flushed; [exact WF|]. now rewrite E2, E3.
  - intros _. apply init_weak; [exact WF|]. now rewrite E2, E3.
  - exact HFo.
  - rewrite Ebits. exact Hs.
  - rewrite <- shift_init in E. rewrite Ebits, Ebb, E2 in *.
    set (M := surviving 64 (64 * keccak_words d) bits [] fs) in *.
    assert (Hshort : short M).
    { unfold short, blen. cbn [length] in Dk. rewrite Nat.mul_0_l, !Nat.add_0_l in Dk.
      eapply N.le_lt_trans; [|exact Hs]. rewrite <- Dk. generalize (k * (64 * keccak_words d)) (length M). clear. intros; lia. }
    exists (shift C k a). split; [exact E|].
    assert (Es : acc_result C (shift C k a) = acc_result C a).
    { destruct fs as [|f fs].
      - assert (k = 0) as ->. { cbn [surviving flat_map length] in Dk. unfold M in Dk. cbn [surviving length] in Dk.
          assert (0 < 64 * keccak_words d) by (rewrite <- Ebb; apply bb_pos; exact WF). nia. }
        now rewrite shift_0.
      - assert (HSn : M <> []) by (apply F; discriminate).
        assert (Ht : (total a <> 0)%N).
        { destruct R as (M0 & T & Es & R & _). destruct R. rewrite rf_total, <- Es, count_short by exact Hshort.
          unfold blen. destruct M; [now elim HSn|]. cbn [length]. lia. }
        assert (Hp : 0 < 64 * keccak_words d) by (rewrite <- Ebb; apply bb_pos; exact WF).
        destruct HC; apply sponge_digest_shift; auto. }
    rewrite Es. now apply any_bits.
Qed.

(** Block feeds lose nothing. *)
Lemma surviving_blocks w n (f : feed -> list bool) (fs : list (list N * nat)) : forall M,
  surviving w n f M (map (fun p => FBlock (fst p) (snd p)) fs) = M ++ flat_map f (map (fun p => FBlock (fst p) (snd p)) fs).
Proof.
  induction fs as [|p fs IH]; intros M; cbn [map surviving flat_map]; [now rewrite app_nil_r|].
  cbn [andb]. now rewrite IH, app_assoc.
Qed.
Lemma any_blocks junk (fs : list (list N * nat)) : block_ok 64 (keccak_words d) junk ->
  Forall (fun f => block_ok 64 (keccak_words d) (fst f) /\ 0 < snd f <= 64 * keccak_words d) fs ->
  let M := flat_map (fun f => firstn (snd f) (stream BOBB 64 (fst f))) fs in
  (N.of_nat (length M) < 2 ^ 64)%N ->
  exists a, acc_feeds C inj (acc_init C junk) (map (fun f => FBlock (fst f) (snd f)) fs) = Some a /\
    (length M mod bb + length suffix + 2 <= bb -> exists s, taken_for M s /\
       acc_result C a = Some (bits_octets_lsb (keccak_sponge bb (s ++ suffix) d))) /\
    (bb < length M mod bb + length suffix + 2 -> acc_result C a = None).
Proof.
  intros Hj HF M Hs.
  assert (EM : flat_map bits (map (fun f => FBlock (fst f) (snd f)) fs) = M).
  { unfold M. clear M Hs. induction HF as [|f fs [_ Hf] HF IH]; [reflexivity|]. cbn [map flat_map].
    rewrite IH. destruct (snd f =? 0) eqn:Q; [lia|reflexivity]. }
  destruct (any_history junk (map (fun f => FBlock (fst f) (snd f)) fs) Hj) as (a & E & R).
  - apply Forall_forall. intros f H. apply in_map_iff in H. destruct H as (p & <- & H).
    rewrite Forall_forall in HF. specialize (HF p H). split; [apply HF|lia].
  - rewrite EM. exact Hs.
  - rewrite surviving_blocks, EM in R. cbn [app] in R. exists a. split; [exact E|exact R].
Qed.
End Both.

Lemma sponge_overrun d injb inj junk C H v :
  sponge_size d -> injector_contract BOLB 64 (keccak_words d) injb -> sponge_hash d injb C H ->
  injector_contract BOBB 64 (keccak_words d) inj -> block_ok 64 (keccak_words d) junk ->
  block_ok 64 (keccak_words d) v ->
  exists a, acc_feeds C inj (acc_init C junk) [FBlock v (64 * keccak_words d - 1)] = Some a /\
    acc_result C a = None.
Proof.
  intros Hd HB HC HI Hj Hv. destruct (sponge_side d Hd) as (S1 & _). pose proof (keccak_words_bits d Hd) as KB.
  assert (X : exists suffix, suffixed_hash d injb C suffix).
  { destruct HC as [|perm HP]; eexists; [apply SX_sha3|now apply SX_keccak]. }
  destruct X as [suffix X]. set (n := 64 * keccak_words d - 1) in *. set (bbn := 1600 - 2 * d) in *.
  assert (Ln : n = bbn - 1 /\ 0 < n <= 64 * keccak_words d /\ n < 1600 /\ 64 <= bbn) by lia.
  assert (EL : length (flat_map (fun f => firstn (snd f) (stream BOBB 64 (fst f))) [(v, n)]) = n).
  { cbn [flat_map fst snd]. rewrite app_nil_r, firstn_length, (block_stream_length BOBB 64 (keccak_words d)) by exact Hv. lia. }
  destruct (any_blocks d Hd injb HB C suffix X inj HI junk [(v, n)] Hj) as (a & E & _ & R).
  - constructor; [|constructor]. split; [exact Hv|apply Ln].
  - rewrite EL. clear - Ln. lia.
  - exists a. split; [exact E|]. apply R. rewrite EL. fold bbn. rewrite Nat.mod_small by lia. lia.
Qed.

Lemma taken_example :
  Forall (fun f => block_ok 64 (keccak_words 256) (fst f) /\ 0 < snd f <= 64 * keccak_words 256)
    [(repeat 0xFFFFFFFF%N 17, 3); (repeat 0x12345678%N 17, 1088); (repeat 1%N 17, 5)] /\
  taken_for (octets_bits [0x61]%N ++ [true; false; true; true; false]) (octets_bits_lsb [0x61]%N ++ [true; false; true; false; true]).
Proof.
  Transparent keccak_words.
  split.
  - change (keccak_words 256) with 17.
    assert (B : forall x, fits 64 x -> block_ok 64 17 (repeat x 17)) by (intros x Hx; split; [reflexivity|now apply Forall_forall; intros y Hy; apply repeat_spec in Hy; subst y]).
    assert (L : forall x n, fits 64 x -> (0 <? n) = true -> (n <=? 64 * 17) = true ->
      block_ok 64 17 (fst (repeat x 17, n)) /\ 0 < snd (repeat x 17, n) <= 64 * 17).
    { intros x n Hx H1 H2. split; [now apply B|]. cbn [snd]. apply Nat.ltb_lt in H1. apply Nat.leb_le in H2. now split. }
    constructor; [|constructor; [|constructor; [|constructor]]]; apply L; vm_compute; reflexivity.
  - exists [0x61]%N, [true; false; true; false; true]. split; [repeat constructor|]. split; [reflexivity|]. split; [reflexivity|].
    split; [reflexivity|]. change (length (octets_bits [0x61]%N ++ [true; false; true; true; false]) mod 8) with 5.
    intros i Hi H7. do 5 (destruct i as [|i]; [first [lia|reflexivity]|]). lia.
Qed.
