(** The digest after any history of word and block feeds. *)
From Coq Require Import NArith Arith List Bool Lia ZifyBool ZifyNat ZifyN ZArith.
From Verif Require Import SpecStream LStream MPack LInj MAcc LAcc LBsp MConstr SpecMD LMD LMDProps SpecFeeds LFeeds.
From Verif Require Import SpecSponge MKeccak LSponge LSpongeStmt.
Import ListNotations.
Ltac Zify.zify_post_hook ::= Z.div_mod_to_equations.

Section MDshift.
Context (e : endian) (w bw lb dw : nat) (iv : list N) (comp : list N -> list N -> list N)
        (padding : list N -> nat -> option (list N * nat)) (marker : list bool).
Notation C := (md_construction e w bw lb dw iv comp padding).
Notation bb := (w * bw).
Context (Hw8 : w mod 8 = 0) (Hw : 0 < w) (Hbw : 0 < bw).
Context (Hlb : 64 <= lb) (Hlw : lb mod w = 0) (Hw64 : w <= 64) (Hlbb : lb <= bb).
Context (Hpad : forall b seen, block_ok w bw b -> seen + length marker <= bb ->
  exists b1, padding b seen = Some (b1, seen + length marker) /\ block_ok w bw b1 /\
    stream e w b1 = firstn seen (stream e w b) ++ marker ++
                    repeat false (bb - (seen + length marker))).

Lemma md_digest_shift a k M L : weakR C a M -> L = k * bb + length M -> (N.of_nat L < 2 ^ 64)%N ->
  room w bw marker M -> M <> [] \/ k = 0 ->
  acc_result C (shift C k a) = Some (md_hash_as e w bw lb (w * dw) marker iv comp (N.of_nat L) M).
Proof.
  intros (M0 & T & -> & R & F) HL Hlt Hroom Hcnt. destruct R.
  assert (Hbb : 0 < bb) by nia.
  assert (Hs : short (M0 ++ T)) by (unfold short, blen; lia).
  unfold acc_result, shift. cbn [total cache cst filled]. cbn [c_digest md_construction]. unfold md_digest.
  rewrite (ltb64 e w bw lb dw iv comp padding marker Hw8 Hw Hbw Hlb Hlw Hw64 Hlbb Hpad). rewrite rf_total, count_short by exact Hs. unfold blen.
  change (block_bits C) with bb in *. change (c_endian C) with e in *. change (c_word C) with w in *.
  change (c_words C) with bw in *.
  replace (N.of_nat (length (M0 ++ T)) + N.of_nat (k * bb))%N with (N.of_nat L) by lia.
  rewrite (N.mod_small (N.of_nat L)) by exact Hlt.
  rewrite rf_state.
  assert (HdM : length M0 = bb * (length M0 / bb)) by (apply Nat.div_exact; lia).
  assert (Eseen : N.to_nat (N.of_nat L mod N.of_nat bb) = length T mod bb).
  { rewrite <- Nnat.Nat2N.inj_mod, Nnat.Nat2N.id, HL, app_length.
    replace (k * bb + (length M0 + length T)) with (length T + (k + length M0 / bb) * bb) by nia.
    apply Nat.mod_add. lia. }
  rewrite Eseen.
  assert (Emod : length (M0 ++ T) mod bb = length T mod bb).
  { rewrite app_length, <- Nat.add_mod_idemp_l, rf_M0 by lia. reflexivity. }
  unfold room in Hroom. rewrite Emod in Hroom.
  destruct (Nat.eq_dec (length T) bb) as [ET|ET].
  - assert (E0 : length T mod bb = 0) by (rewrite ET; apply Nat.mod_same; lia).
    rewrite E0 in Hroom |- *.
    assert (Hnz : (N.of_nat L =? 0)%N = false).
    { apply N.eqb_neq. rewrite app_length in HL. lia. }
    rewrite Hnz. cbn [negb andb Nat.eqb].
    pose proof (md_finish e w bw lb dw iv comp padding marker Hw8 Hw Hbw Hlb Hlw Hw64 Hlbb Hpad
      (comp (absorbed C M0) (cache a)) (cache a) (M0 ++ T) [] (N.of_nat L)) as X.
    rewrite (app_nil_r (M0 ++ T)) in X. cbn [length firstn] in X. apply X; auto; try lia.
    rewrite md_absorbed. rewrite (md_chain_app e w bw lb dw iv comp padding marker Hw8 Hw Hbw Hlb Hlw Hw64 Hlbb Hpad) by auto.
    rewrite chunks_single by auto. cbn [map fold_left]. f_equal.
    rewrite <- rf_head, ET.
    rewrite firstn_all2 by (rewrite (block_stream_length e w bw) by auto; lia).
    symmetry. apply (block_words_stream e w bw); auto.
  - assert (Hlt' : length T < bb) by lia.
    rewrite (Nat.mod_small (length T)) in Hroom |- * by auto.
    assert (Hc : negb (N.of_nat L =? 0)%N && (length T =? 0) = false).
    { destruct (length T =? 0) eqn:EZ; [|now rewrite andb_false_r].
      destruct T; [|discriminate]. specialize (rf_nil eq_refl). subst M0.
      destruct Hcnt as [Hcnt|Hcnt]; [now elim Hcnt|]. subst k.
      replace L with 0 by (cbn [app length] in HL; lia). reflexivity. }
    rewrite Hc. apply (md_finish e w bw lb dw iv comp padding marker Hw8 Hw Hbw Hlb Hlw Hw64 Hlbb Hpad); auto. apply md_absorbed.
Qed.
End MDshift.

Lemma shift_init C junk : acc_init C junk = shift C 0 (acc_init C junk).
Proof. symmetry. apply shift_0. Qed.

Lemma init_flushed C (WF : wf_construction C) junk : block_ok (c_word C) (c_words C) junk -> flushedR C (acc_init C junk) [].
Proof. intros Hj. apply flush_spec; auto. now apply init_strict. Qed.

Lemma md_every e w bw lb dw iv comp inj junk (fs : list feed) :
  let C := mdC e w bw lb dw iv comp inj in
  let bits := fun f => match f with
                       | FBlock v n => firstn (if n =? 0 then w * bw else n) (stream e w v)
                       | FWord x n => firstn (if n =? 0 then w else n) (word_stream e w x) end in
  md_params w bw lb -> injector_contract e w bw inj -> block_ok w bw junk ->
  Forall (fun f => match f with
                   | FBlock v n => block_ok w bw v /\ n <= w * bw
                   | FWord x n => fits w x /\ n <= w end) fs ->
  (N.of_nat (length (flat_map bits fs)) < 2 ^ 64)%N ->
  exists a, acc_feeds C inj (acc_init C junk) fs = Some a /\
    acc_result C a = Some (md_hash_as e w bw lb (w * dw) one_marker iv comp
      (N.of_nat (length (flat_map bits fs))) (surviving w (w * bw) bits [] fs)).
Proof.
  intros C bits MP HI Hj HF Hs.
  assert (WF : wf_construction C) by now apply mdC_wf.
  destruct (lossy_feeds C inj WF HI (fun s b x y => eq_refl) fs (acc_init C junk) 0 []) as (a & k & E & R & D & F).
  - now apply init_flushed.
  - intros _. now apply init_weak.
  - exact HF.
  - exact Hs.
  - rewrite <- shift_init in E. exists (shift C k a). split; [exact E|].
    destruct MP. apply (md_digest_shift e w bw lb dw iv comp _ one_marker); auto; try lia.
    + intros. apply md_padding_spec; auto; lia.
    + unfold room. cbn [length one_marker]. assert (w * bw <> 0) by nia.
      pose proof (Nat.mod_upper_bound (length (surviving w (w * bw) bits [] fs)) (w * bw)). lia.
    + destruct fs as [|f fs]; [right|left; apply F; discriminate].
      cbn [surviving flat_map length] in D. rewrite !Nat.add_0_r in D. change (k * (w * bw) = 0) in D. nia.
Qed.

Lemma tiger_every e w bw lb dw iv comp inj junk (fs : list feed) :
  let C := tgC e w bw lb dw iv comp inj in
  let bits := fun f => match f with
                       | FBlock v n => firstn (if n =? 0 then w * bw else n) (stream e w v)
                       | FWord x n => firstn (if n =? 0 then w else n) (word_stream e w x) end in
  md_params w bw lb -> injector_contract e w bw inj -> block_ok w bw junk ->
  Forall (fun f => match f with
                   | FBlock v n => block_ok w bw v /\ n <= w * bw
                   | FWord x n => fits w x /\ n <= w end) fs ->
  (N.of_nat (length (flat_map bits fs)) < 2 ^ 64)%N -> length (flat_map bits fs) mod (w * bw) + 8 <= w * bw ->
  exists a, acc_feeds C inj (acc_init C junk) fs = Some a /\
    acc_result C a = Some (md_hash_as e w bw lb (w * dw) tiger_marker iv comp
      (N.of_nat (length (flat_map bits fs))) (surviving w (w * bw) bits [] fs)).
Proof.
  intros C bits MP HI Hj HF Hs Hroom.
  assert (WF : wf_construction C) by now apply tgC_wf.
  destruct (lossy_feeds C inj WF HI (fun s b x y => eq_refl) fs (acc_init C junk) 0 []) as (a & k & E & R & D & F).
  - now apply init_flushed.
  - intros _. now apply init_weak.
  - exact HF.
  - exact Hs.
  - rewrite <- shift_init in E. exists (shift C k a). split; [exact E|].
    destruct MP. apply (md_digest_shift e w bw lb dw iv comp _ tiger_marker); auto; try lia.
    + intros. apply tiger_padding_spec; auto; lia.
    + unfold room. cbn [length tiger_marker]. assert (w * bw <> 0) by nia.
      replace (length (surviving w (w * bw) bits [] fs) mod (w * bw)) with (length (flat_map bits fs) mod (w * bw)); [exact Hroom|].
      change (length (flat_map bits fs)) with (0 * (w * bw) + 0 + length (flat_map bits fs)).
      transitivity ((k * (w * bw) + length (surviving w (w * bw) bits [] fs)) mod (w * bw)).
      * f_equal. symmetry. exact D.
      * rewrite Nat.add_comm. apply Nat.mod_add. assumption.
    + destruct fs as [|f fs]; [right|left; apply F; discriminate].
      cbn [surviving flat_map length] in D. rewrite !Nat.add_0_r in D. change (k * (w * bw) = 0) in D. nia.
Qed.

Lemma sponge_digest_shift e w bw db iv comp padding last fin k a :
  let C := sponge_construction e w bw db iv comp padding last fin in
  0 < w * bw -> (total a <> 0)%N -> acc_result C (shift C k a) = acc_result C a.
Proof.
  intros C Hbb Ht.
  change (sponge_digest e w bw db comp padding last fin (cst a) (cache a) (total a + N.of_nat (k * (w * bw))) =
          sponge_digest e w bw db comp padding last fin (cst a) (cache a) (total a)).
  unfold sponge_digest.
  replace ((total a + N.of_nat (k * (w * bw))) mod N.of_nat (w * bw))%N with (total a mod N.of_nat (w * bw))%N.
  2:{ rewrite (Nnat.Nat2N.inj_mul k). symmetry. apply N.mod_add. lia. }
  assert (E : (total a + N.of_nat (k * (w * bw)) =? 0)%N = (total a =? 0)%N).
  { destruct (total a =? 0)%N eqn:Z; [lia|]. apply N.eqb_neq in Z. apply N.eqb_neq. lia. }
  rewrite E. reflexivity.
Qed.

Lemma sponge_every d injb inj junk C H (fs : list feed) :
  let w := 64 in let bw := keccak_words d in
  let bits := fun f => match f with
                       | FBlock v n => firstn (if n =? 0 then w * bw else n) (stream BOBB w v)
                       | FWord x n => firstn (if n =? 0 then w else n) (word_stream BOBB w x) end in
  sponge_size d -> injector_contract BOLB w bw injb -> sponge_hash d injb C H ->
  injector_contract BOBB w bw inj -> block_ok w bw junk ->
  Forall (fun f => match f with
                   | FBlock v n => block_ok w bw v /\ n <= w * bw /\ n mod 8 = 0
                   | FWord x n => fits w x /\ n <= w /\ n mod 8 = 0 end) fs ->
  (N.of_nat (length (flat_map bits fs)) < 2 ^ 64)%N ->
  exists a os, acc_feeds C inj (acc_init C junk) fs = Some a /\ Forall (fits 8) os /\
    octets_bits os = surviving w (w * bw) bits [] fs /\ acc_result C a = Some (H os).
Proof.
  intros w bw bits Hd HB HC HI Hj HF Hs.
  destruct (both_shape d Hd injb C H HC) as (E1 & E2 & E3 & WF).
  destruct (both_correct d Hd injb HB C H HC) as (D & DC & HD).
  assert (Ebb : block_bits C = w * bw) by (unfold block_bits; now rewrite E2, E3).
  assert (Ebits : feed_bits C = bits).
  { unfold feed_bits, bits. rewrite E1, E2, Ebb. reflexivity. }
  assert (Hproc : forall s b x y, c_proc C s b x = c_proc C s b y) by (destruct HC; reflexivity).
  assert (HFo : Forall (feed_ok C) fs).
  { eapply Forall_impl; [|exact HF]. intros f. unfold feed_ok. rewrite Ebb, E2, E3. destruct f; tauto. }
  assert (H8 : length (flat_map bits fs) mod 8 = 0).
  { clear Hs HFo. induction HF as [|f fs Hf HF IH]; [reflexivity|].
    cbn [flat_map]. rewrite app_length, <- Nat.add_mod_idemp_r, IH, Nat.add_0_r by lia.
    assert (Lw : w = 64) by reflexivity. clearbody w.
    destruct f as [v n|x n]; destruct Hf as (Hx & Hn & Hm); cbn [bits]; rewrite firstn_length.
    - rewrite (block_stream_length BOBB w bw) by exact Hx. destruct (n =? 0) eqn:Z.
      + rewrite Nat.min_id, Lw. replace (64 * bw) with (8 * bw * 8) by lia. apply Nat.mod_mul. lia.
      + rewrite Nat.min_l by exact Hn. exact Hm.
    - rewrite word_stream_length. destruct (n =? 0) eqn:Z.
      + rewrite Nat.min_id, Lw. reflexivity.
      + rewrite Nat.min_l by exact Hn. exact Hm. }
  destruct (lossy_feeds C inj WF) with (fs := fs) (a := acc_init C junk) (k := 0) (M := @nil bool) as (a & k & E & R & Dk & F).
  - rewrite E1, E2, E3. exact HI.
  - exact Hproc.
  - apply init_flushed; [exact WF|]. now rewrite E2, E3.
  - intros _. apply init_weak; [exact WF|]. now rewrite E2, E3.
  - exact HFo.
  - rewrite Ebits. exact Hs.
  - rewrite <- shift_init in E. rewrite Ebits, Ebb, E2 in *.
    set (S := surviving w (w * bw) bits [] fs) in *. change (surviving 64 (w * bw) bits [] fs) with S in *.
    assert (S8 : length S mod 8 = 0).
    { cbn [length] in Dk. rewrite Nat.mul_0_l, !Nat.add_0_l in Dk. rewrite <- Dk in H8.
      transitivity ((k * (w * bw) + length S) mod 8); [|exact H8].
      rewrite Nat.add_comm. replace (k * (w * bw)) with (k * 8 * bw * 8) by (unfold w; lia). symmetry. apply Nat.mod_add. lia. }
    exists (shift C k a), (words_of_stream BOBB 8 S). split; [exact E|]. split; [apply words_of_stream_fits|].
    assert (Eo : octets_bits (words_of_stream BOBB 8 S) = S).
    { rewrite <- (octet_stream BOBB) by now left. apply stream_words_of_stream; auto; lia. }
    split; [exact Eo|].
    rewrite <- HD, Eo by apply words_of_stream_fits.
    assert (Hshort : short S).
    { unfold short, blen. cbn [length] in Dk. rewrite Nat.mul_0_l, !Nat.add_0_l in Dk.
      eapply N.le_lt_trans; [|exact Hs]. rewrite <- Dk. generalize (k * (w * bw)) (length S). clear. intros; lia. }
    rewrite <- (DC a S R Hshort S8).
    destruct fs as [|f fs].
    + assert (k = 0) as ->. { cbn [surviving flat_map length] in Dk. unfold S in Dk. cbn [surviving length] in Dk.
        assert (0 < w * bw) by (rewrite <- Ebb; apply bb_pos; exact WF). nia. }
      now rewrite shift_0.
    + assert (HSn : S <> []) by (apply F; discriminate).
      assert (Ht : (total a <> 0)%N).
      { destruct R as (M0 & T & Es & R & _). destruct R. rewrite rf_total, <- Es, count_short by exact Hshort.
        unfold blen. destruct S; [now elim HSn|]. cbn [length]. lia. }
      assert (Hp : 0 < 64 * keccak_words d) by (rewrite <- Ebb in *; unfold w, bw in Ebb; rewrite <- Ebb; apply bb_pos; exact WF).
      destruct HC; apply sponge_digest_shift; auto.
Qed.

Lemma forgetful_example :
  let bits := fun f => match f with
                       | FBlock v n => firstn (if n =? 0 then 32 * 16 else n) (stream BOBB 32 v)
                       | FWord x n => firstn (if n =? 0 then 32 else n) (word_stream BOBB 32 x) end in
  let fs := FBlock (repeat 0x61626364%N 16) 32 :: map (fun i => FWord (N.of_nat i) 0) (seq 1 15) ++ [FWord 0x12345678%N 8] in
  Forall (fun f => match f with FBlock v n => block_ok 32 16 v /\ n <= 32 * 16 | FWord x n => fits 32 x /\ n <= 32 end) fs /\
  length (flat_map bits fs) = 520 /\
  surviving 32 (32 * 16) bits [] fs = [false; false; false; true; false; false; true; false] /\
  surviving 32 (32 * 16) bits [] (removelast fs) = flat_map bits (removelast fs).
Proof.
  intros bits fs. split; [|split; [|split]]; [|vm_compute; reflexivity..].
  apply Forall_cons; [|apply Forall_app; split].
  - split; [|apply Nat.leb_le; reflexivity]. split; [reflexivity|].
    apply Forall_forall. intros x Hx. apply repeat_spec in Hx. subst. vm_compute. reflexivity.
  - apply Forall_map, Forall_forall. intros i Hi. apply in_seq in Hi. split; [|apply Nat.leb_le; reflexivity].
    unfold fits. apply N.lt_trans with 16%N; [|reflexivity]. destruct Hi as [_ Hi]. change (1 + 15) with 16 in Hi. lia.
  - apply Forall_cons; [|apply Forall_nil]. split; [vm_compute; reflexivity|apply Nat.leb_le; reflexivity].
Qed.

Definition counted (f : feed) : bool := match f with FBlock _ n | FWord _ n => negb (n =? 0) end.

Lemma bits_count_every C fs : Forall (feed_ok C) fs -> forall c,
  (c + N.of_nat (length (flat_map (feed_bits C) fs)) < 2 ^ 64)%N ->
  fold_left bits_count_feed fs c = (c + N.of_nat (length (flat_map (feed_bits C) (filter counted fs))))%N.
Proof.
  induction 1 as [|f fs Hf HF IH]; intros c Hc.
  - cbn [fold_left filter flat_map length]. change (N.of_nat 0) with 0%N. now rewrite N.add_0_r.
  - cbn [fold_left filter flat_map] in Hc |- *.
    pose proof (feed_bits_length C f Hf) as L. rewrite app_length in Hc.
    assert (B : bits_count_feed c f = (c + N.of_nat (if counted f then length (feed_bits C f) else 0))%N).
    { rewrite L in Hc |- *. destruct f as [v n|x n]; unfold bits_count_feed, counted;
        destruct (n =? 0) eqn:Z; cbn [negb];
        try (apply Nat.eqb_eq in Z; subst n); rewrite wrap64_small by lia; reflexivity. }
    rewrite B, IH by (destruct (counted f); lia).
    destruct (counted f); cbn [flat_map]; [rewrite app_length|]; lia.
Qed.

Lemma md_bits_count_every e w bw lb dw iv comp inj junk (fs : list feed) :
  let C := mdC e w bw lb dw iv comp inj in
  let bits := fun f => match f with
                       | FBlock v n => firstn (if n =? 0 then w * bw else n) (stream e w v)
                       | FWord x n => firstn (if n =? 0 then w else n) (word_stream e w x) end in
  md_params w bw lb -> injector_contract e w bw inj -> block_ok w bw junk ->
  Forall (fun f => match f with
                   | FBlock v n => block_ok w bw v /\ n <= w * bw
                   | FWord x n => fits w x /\ n <= w end) fs ->
  (N.of_nat (length (flat_map bits fs)) < 2 ^ 64)%N ->
  exists a, acc_feeds C inj (acc_init C junk) fs = Some a /\ total a = N.of_nat (length (flat_map bits fs)) /\
    bits_count fs = N.of_nat (length (flat_map bits (filter counted fs))).
Proof.
  intros C bits MP HI Hj HF Hs.
  assert (WF : wf_construction C) by now apply mdC_wf.
  destruct (lossy_feeds C inj WF HI (fun s b x y => eq_refl) fs (acc_init C junk) 0 []) as (a & k & E & R & D & F).
  - now apply init_flushed.
  - intros _. now apply init_weak.
  - exact HF.
  - exact Hs.
  - rewrite <- shift_init in E. exists (shift C k a). split; [exact E|]. split.
    + destruct R as (M0 & T & Es & R & _). destruct R. unfold shift. cbn [total].
      rewrite rf_total, <- Es. rewrite count_short.
      * unfold blen. cbn [length] in D. rewrite Nat.mul_0_l, !Nat.add_0_l in D.
        rewrite <- Nnat.Nat2N.inj_add, Nat.add_comm, D. reflexivity.
      * unfold short, blen. cbn [length] in D. rewrite Nat.mul_0_l, !Nat.add_0_l in D.
        eapply N.le_lt_trans; [|exact Hs]. change bits with (feed_bits C). rewrite <- D. apply N.leb_le. lia.
    + apply (bits_count_every C fs HF 0). exact Hs.
Qed.
