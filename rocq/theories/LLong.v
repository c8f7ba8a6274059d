(** Messages of 2^64 bits and more: proofs for C69. *)
From Coq Require Import NArith Arith List Bool Lia ZifyBool ZifyNat ZifyN ZArith.
From Verif Require Import SpecStream LStream MPack LInj MAcc LAcc LBsp MConstr SpecMD LMD LMDProps LHist LMDStmt.
From Verif Require Import SpecOctets SpecKeccak MKeccak SpecSponge LKeccakF LKeccakP LSponge LSpongeStmt.
From Verif Require Import SpecWords LWords SpecBlake2b MBlake2b LHaifa LBlake2b LBlake2bStmt.
Import ListNotations.
Ltac Zify.zify_post_hook ::= Z.div_mod_to_equations.

Lemma count_octets os : count (octets_bits os) = (N.of_nat (8 * length os) mod 2 ^ 64)%N.
Proof. unfold count, wrap64, blen. now rewrite octets_bits_length. Qed.

(** The accumulator after one call, for messages of any length. *)
Lemma once_state C inj (WF : wf_construction C)
  (HI : injector_contract (c_endian C) (c_word C) (c_words C) inj) junk os :
  c_host C = BOBB \/ c_host C = LOBB ->
  (2 ^ 64 mod N.of_nat (block_bits C) = 0)%N -> block_ok (c_word C) (c_words C) junk -> Forall (fits 8) os ->
  exists a, strictR C a (octets_bits os) /\ hash_once C inj 8 junk os = acc_result C a.
Proof.
  intros He Hd Hj Hf. pose proof (wf_w8 C WF) as W8.
  destruct (hash_into_R C inj WF HI 8 eq_refl ltac:(lia) W8 (acc_init C junk) [] os) as (a & E & R); auto.
  - now apply init_strict.
  - right. exact Hd.
  - exists a. cbn [app] in R. rewrite octet_stream in R by exact He. split; [exact R|].
    unfold hash_once. now rewrite E.
Qed.

Lemma md_any e w bw lb dw iv comp inj junk os :
  md_params w bw lb -> injector_contract e w bw inj -> block_ok w bw junk ->
  e = BOBB \/ e = LOBB -> Forall (fits 8) os ->
  (2 ^ 64 mod N.of_nat (w * bw) = 0)%N -> (N.of_nat (8 * length os) mod 2 ^ 64 <> 0)%N ->
  hash_once (mdC e w bw lb dw iv comp inj) inj 8 junk os =
  Some (md_hash_as e w bw lb (w * dw) one_marker iv comp (N.of_nat (8 * length os) mod 2 ^ 64) (octets_bits os)) /\
  hash_once (tgC e w bw lb dw iv comp inj) inj 8 junk os =
  Some (md_hash_as e w bw lb (w * dw) tiger_marker iv comp (N.of_nat (8 * length os) mod 2 ^ 64) (octets_bits os)).
Proof.
  intros MP HI Hj He Hf Hd Hn. destruct MP as [P1 P2 P3 P4 P5].
  assert (MP : md_params w bw lb) by (constructor; auto).
  assert (Hbb : 0 < w * bw) by nia.
  split.
  - destruct (once_state (mdC e w bw lb dw iv comp inj) inj (mdC_wf _ _ _ _ _ _ _ _ MP) HI junk os) as (a & R & E); auto.
    rewrite E, <- count_octets.
    apply (md_digest_any e w bw lb dw iv comp _ one_marker); auto; try lia.
    + intros. apply md_padding_spec; auto; lia.
    + now apply strict_weak.
    + right. exact Hd.
    + unfold room. cbn [length one_marker]. pose proof (Nat.mod_upper_bound (length (octets_bits os)) (w * bw)). lia.
    + left. now rewrite count_octets.
  - destruct (once_state (tgC e w bw lb dw iv comp inj) inj (tgC_wf _ _ _ _ _ _ _ _ MP) HI junk os) as (a & R & E); auto.
    rewrite E, <- count_octets.
    apply (md_digest_any e w bw lb dw iv comp _ tiger_marker); auto; try lia.
    + intros. apply tiger_padding_spec; auto; lia.
    + now apply strict_weak.
    + right. exact Hd.
    + unfold room. cbn [length tiger_marker]. rewrite octets_bits_length.
      pose proof (Nat.mod_upper_bound (8 * length os) (w * bw)).
      assert (Hw : w = 8 * (w / 8)) by (apply Nat.div_exact; lia).
      set (k := w / 8) in *. rewrite Hw. rewrite <- Nat.mul_assoc.
      rewrite Nat.mul_mod_distr_l by nia.
      pose proof (Nat.mod_upper_bound (length os) (k * bw)). nia.
    + left. now rewrite count_octets.
Qed.

Lemma strict_whole C (WF : wf_construction C) a M0 T :
  strictR C a (M0 ++ T) -> length M0 mod block_bits C = 0 -> length T = block_bits C ->
  refines C a M0 T.
Proof.
  intros (M1 & T1 & E & R & F) H0 HT. pose proof (bb_pos C WF) as Hbb. pose proof R as [R1 R2 R3 R4 R5 R6 R7].
  assert (L : length M0 + length T = length M1 + length T1) by (rewrite <- !app_length; now rewrite E).
  assert (K : length T1 <> 0).
  { intros Z. destruct T1; [|discriminate]. rewrite (R5 eq_refl) in L. cbn [length] in L. lia. }
  assert (Q : length M0 = length M1).
  { apply Nat.div_exact in H0; [|lia]. apply Nat.div_exact in R3; [|lia].
    generalize dependent (length M0 / block_bits C). generalize dependent (length M1 / block_bits C). intros q1 E1 q2 E2.
    assert (q1 = q2) by nia. subst. lia. }
  assert (EM : M0 = M1).
  { apply (f_equal (firstn (length M0))) in E. rewrite firstn_app_exact in E by reflexivity.
    rewrite Q, firstn_app_exact in E by reflexivity. exact E. }
  subst M1. apply app_inv_head in E. subst T1. exact R.
Qed.

Lemma md_lost e w bw lb dw iv comp inj junk pre last :
  md_params w bw lb -> injector_contract e w bw inj -> block_ok w bw junk ->
  e = BOBB \/ e = LOBB -> Forall (fits 8) (pre ++ last) ->
  (2 ^ 64 mod N.of_nat (w * bw) = 0)%N ->
  8 * length last = w * bw -> (N.of_nat (8 * length (pre ++ last)) mod 2 ^ 64 = 0)%N ->
  hash_once (mdC e w bw lb dw iv comp inj) inj 8 junk (pre ++ last) =
  Some (md_hash_as e w bw lb (w * dw) one_marker iv comp 0 (octets_bits pre)) /\
  hash_once (tgC e w bw lb dw iv comp inj) inj 8 junk (pre ++ last) =
  Some (md_hash_as e w bw lb (w * dw) tiger_marker iv comp 0 (octets_bits pre)).
Proof.
  intros MP HI Hj He Hf Hd Hl Hn. destruct MP as [P1 P2 P3 P4 P5].
  assert (MP : md_params w bw lb) by (constructor; auto).
  assert (Hbb : 0 < w * bw) by nia.
  assert (H0 : length (octets_bits pre) mod (w * bw) = 0).
  { rewrite octets_bits_length. rewrite app_length in Hn.
    apply N.div_exact in Hn; [|apply N.pow_nonzero; discriminate]. apply N.div_exact in Hd; [|lia].
    assert (K : (N.of_nat (8 * length pre) mod N.of_nat (w * bw) = 0)%N).
    { replace (N.of_nat (8 * length pre)) with (N.of_nat (8 * (length pre + length last)) - N.of_nat (w * bw))%N by lia.
      rewrite Hn, Hd. set (q := (N.of_nat (8 * (length pre + length last)) / _)%N). clearbody q.
      set (m := (2 ^ 64 / N.of_nat (w * bw))%N). clearbody m.
      replace (N.of_nat (w * bw) * m * q - N.of_nat (w * bw))%N with ((m * q - 1) * N.of_nat (w * bw))%N by nia.
      apply N.mod_mul. lia. }
    rewrite <- Nnat.Nat2N.inj_mod in K. lia. }
  assert (HT : length (octets_bits last) = w * bw) by (rewrite octets_bits_length; exact Hl).
  assert (Hc : count (octets_bits pre ++ octets_bits last) = 0%N) by (rewrite <- octets_bits_app, count_octets; exact Hn).
  split.
  - destruct (once_state (mdC e w bw lb dw iv comp inj) inj (mdC_wf _ _ _ _ _ _ _ _ MP) HI junk (pre ++ last)) as (a & R & E); auto.
    rewrite E. rewrite octets_bits_app in R.
    apply (md_digest_lost e w bw lb dw iv comp _ one_marker) with (T := octets_bits last); auto; try lia.
    + intros. apply md_padding_spec; auto; lia.
    + apply strict_whole; auto. now apply mdC_wf.
  - destruct (once_state (tgC e w bw lb dw iv comp inj) inj (tgC_wf _ _ _ _ _ _ _ _ MP) HI junk (pre ++ last)) as (a & R & E); auto.
    rewrite E. rewrite octets_bits_app in R.
    apply (md_digest_lost e w bw lb dw iv comp _ tiger_marker) with (T := octets_bits last); auto; try lia.
    + intros. apply tiger_padding_spec; auto; lia.
    + apply strict_whole; auto. now apply tgC_wf.
    + cbn [length tiger_marker]. lia.
Qed.

(** The length field: with a compressor that records its blocks. *)
Lemma record_as e w bw lb L M : md_params w bw lb ->
  let P := md_pad_as e (w * bw) lb one_marker L M in
  stream e 8 (md_hash_as e w bw lb (length P) one_marker [] (fun s b => s ++ b) L M) = P.
Proof.
  intros [P1 P2 P3 P4 P5] P. assert (Hbb : 0 < w * bw) by nia.
  assert (HP : length P mod (w * bw) = 0).
  { pose proof (md_pad_mod e (w * bw) lb one_marker Hbb M) as Q. unfold md_pad in Q. unfold P, md_pad_as.
    rewrite !app_length, word_stream_length in *. exact Q. }
  unfold md_hash_as. fold P. rewrite record_chain by (auto; lia).
  rewrite firstn_all. apply stream_words_of_stream; auto; try lia.
Qed.

Lemma md_length_wrong e w bw lb inj junk os :
  md_params w bw lb -> injector_contract e w bw inj -> block_ok w bw junk ->
  e = BOBB \/ e = LOBB -> Forall (fits 8) os ->
  (2 ^ 64 mod N.of_nat (w * bw) = 0)%N -> (2 ^ 64 < N.of_nat (8 * length os) < 2 ^ N.of_nat lb)%N ->
  (N.of_nat (8 * length os) mod 2 ^ 64 <> 0)%N ->
  exists dw iv comp,
  hash_once (mdC e w bw lb dw iv comp inj) inj 8 junk os <>
  Some (md_hash e w bw lb (w * dw) one_marker iv comp (octets_bits os)).
Proof.
  intros MP HI Hj He Hf Hd Hn Hm. pose proof MP as [P1 P2 P3 P4 P5].
  assert (Hbb : 0 < w * bw) by nia.
  set (M := octets_bits os) in *. set (L := (N.of_nat (8 * length os) mod 2 ^ 64)%N) in *.
  set (n := length (md_pad_as e (w * bw) lb one_marker L M)).
  assert (Hn1 : n = length (md_pad e (w * bw) lb one_marker M)).
  { unfold n, md_pad, md_pad_as. now rewrite !app_length, !word_stream_length. }
  assert (Hnw : n = w * (n / w)).
  { apply Nat.div_exact; [lia|]. rewrite Hn1.
    pose proof (md_pad_mod e (w * bw) lb one_marker Hbb M) as Q. apply Nat.div_exact in Q; [|lia].
    rewrite Q, <- Nat.mul_assoc, Nat.mul_comm. apply Nat.mod_mul. lia. }
  exists (n / w), [], (fun s b => s ++ b).
  destruct (md_any e w bw lb (n / w) [] (fun s b => s ++ b) inj junk os) as [E _]; auto.
  rewrite E. fold M L. rewrite <- Hnw. intros Q. injection Q as Q.
  apply (f_equal (stream e 8)) in Q. unfold n in Q at 1. rewrite (record_as e w bw lb L M MP) in Q.
  pose proof (record_as e w bw lb (N.of_nat (length M)) M MP) as R. cbv zeta in R.
  change (md_pad_as e (w * bw) lb one_marker (N.of_nat (length M)) M) with (md_pad e (w * bw) lb one_marker M) in R.
  rewrite <- Hn1 in R.
  change (md_hash_as e w bw lb n one_marker [] (fun s b => s ++ b) (N.of_nat (length M)) M)
    with (md_hash e w bw lb n one_marker [] (fun s b => s ++ b) M) in R.
  rewrite R in Q. unfold md_pad, md_pad_as in Q.
  apply app_inv_head in Q. apply app_inv_head in Q. apply app_inv_head in Q.
  assert (EL : length M = 8 * length os) by apply octets_bits_length. rewrite EL in Q.
  apply word_stream_inj in Q.
  - unfold L in Q. pose proof (N.mod_upper_bound (N.of_nat (8 * length os)) (2 ^ 64) ltac:(apply N.pow_nonzero; discriminate)). lia.
  - apply Nat.div_exact in P5; [|lia]. apply Nat.div_exact in P1; [|lia].
    rewrite P5, P1, <- Nat.mul_assoc, Nat.mul_comm. apply Nat.mod_mul. lia.
  - unfold fits. eapply N.lt_le_trans; [apply N.mod_upper_bound, N.pow_nonzero; discriminate|].
    apply N.pow_le_mono_r; lia.
  - unfold fits. lia.
Qed.

(** Sponge hashes: a last partial block that takes the counter back to zero. *)
Section Partial.
Context (C : construction) (inj : injector) (WF : wf_construction C).
Context (HI : injector_contract (c_endian C) (c_word C) (c_words C) inj).
Lemma update_n_partial vb (H8 : vb mod 8 = 0) (Hv : 0 < vb) (Hw : c_word C mod vb = 0) xs : forall p M P,
  bspR C vb p M P -> Forall (fits vb) xs -> length P + length xs < block_values C vb ->
  exists p', bsp_update_n C inj vb p xs = Some p' /\ bspR C vb p' M (P ++ xs) /\ b_acc C p' = b_acc C p.
Proof.
  induction xs as [|x xs IH]; intros p M P R F L.
  - exists p. rewrite app_nil_r. auto.
  - inversion F as [|? ? Hx F']; subst. cbn [length] in L. destruct R as [Ra Rc Rs Rl Rh].
    cbn [bsp_update_n]. unfold bsp_update_one at 1. rewrite Rs.
    destruct (length P <? block_values C vb) eqn:Q; [|lia]. cbn [b_seen].
    destruct (S (length P) =? block_values C vb) eqn:Q2; [lia|].
    destruct (IH (Mk_bsp C (b_acc C p) (firstn (length P) (b_cache C p) ++ x :: skipn (S (length P)) (b_cache C p)) (S (length P))) M (P ++ [x]))
      as (p' & E & R' & A); auto.
    + constructor; cbn [b_acc b_cache b_seen]; auto.
      * apply upd_ok; auto.
      * rewrite app_length. cbn [length]. lia.
      * rewrite app_length. cbn [length]. lia.
      * rewrite app_length. cbn [length]. rewrite Rh.
        replace (P ++ x :: skipn (S (length P)) (b_cache C p)) with ((P ++ [x]) ++ skipn (S (length P)) (b_cache C p))
          by (now rewrite <- app_assoc).
        apply firstn_app_exact. rewrite app_length. reflexivity.
    + rewrite app_length. cbn [length]. lia.
    + exists p'. rewrite <- app_assoc in R'. split; [exact E|]. split; [exact R'|exact A].
Qed.

Lemma update_n_seen vb xs : forall p p', 0 < block_values C vb -> b_seen C p < block_values C vb ->
  bsp_update_n C inj vb p xs = Some p' -> b_seen C p' = (b_seen C p + length xs) mod block_values C vb.
Proof.
  induction xs as [|x xs IH]; intros p p' Hb Hp E; cbn [bsp_update_n] in E.
  - injection E as <-. cbn [length]. rewrite Nat.add_0_r, Nat.mod_small; auto.
  - unfold bsp_update_one at 1 in E.
    destruct (b_seen C p <? block_values C vb) eqn:Q; [|discriminate].
    cbn [b_seen] in E. destruct (S (b_seen C p) =? block_values C vb) eqn:Q2.
    + destruct (bsp_process_block C inj vb _ _) as [a'|]; [|discriminate].
      apply IH in E; cbn [b_seen] in *; [|lia|lia]. rewrite E. cbn [length].
      replace (b_seen C p + S (length xs)) with (0 + length xs + 1 * block_values C vb) by lia.
      now rewrite Nat.mod_add by lia.
    + apply IH in E; cbn [b_seen] in *; [|lia|lia]. rewrite E. cbn [length]. f_equal. lia.
Qed.
Lemma update_n_app vb xs ys : forall p, bsp_update_n C inj vb p (xs ++ ys) =
  match bsp_update_n C inj vb p xs with None => None | Some p' => bsp_update_n C inj vb p' ys end.
Proof.
  induction xs as [|x xs IH]; intros p; cbn [app bsp_update_n]; [reflexivity|].
  destruct (bsp_update_one C inj vb p x); auto.
Qed.

(** Whole blocks [pre], then part of a block. *)
Lemma hash_partial junk pre last : c_host C = BOBB \/ c_host C = LOBB ->
  block_ok (c_word C) (c_words C) junk ->
  length pre mod block_values C 8 = 0 -> (N.of_nat (8 * length pre) < 2 ^ 64)%N ->
  Forall (fits 8) (pre ++ last) -> 0 < 8 * length last < block_bits C ->
  exists a', hash_into C inj 8 (acc_init C junk) (pre ++ last) = Some a' /\
    total a' = wrap64 (N.of_nat (8 * length (pre ++ last))) /\
    cst a' = absorbed C (octets_bits pre) /\ block_ok (c_word C) (c_words C) (cache a').
Proof.
  intros He Hj HM HS F HL. pose proof (wf_w8 C WF) as W8. pose proof (bb_pos C WF) as Hbb.
  pose proof (bb_bv C 8 eq_refl ltac:(lia) W8) as Ebb. apply Forall_app in F. destruct F as [F1 F2].
  unfold hash_into. rewrite update_n_app.
  assert (Hs : short (octets_bits pre)) by (unfold short, blen; now rewrite octets_bits_length).
  destruct (bsp_update_n_R C inj WF HI 8 eq_refl ltac:(lia) W8 pre (bsp_init C 8 (acc_init C junk)) [] []) as (p0 & M & P & E0 & R0 & S0); auto.
  { apply bsp_init_R; auto; try lia. now apply init_strict. }
  { cbn [app]. rewrite octet_stream by exact He. now left. }
  rewrite E0. cbn [app] in S0.
  assert (P = []).
  { assert (Hbv : 0 < block_values C 8) by (apply (bv_pos C WF 8); auto; lia).
    pose proof (update_n_seen 8 pre (bsp_init C 8 (acc_init C junk)) p0 Hbv Hbv E0) as Z.
    cbn [bsp_init b_seen] in Z. rewrite Nat.add_0_l, HM in Z. rewrite (bs_seen C 8 _ _ _ R0) in Z.
    destruct P; [reflexivity|discriminate]. }
  subst P. change (stream (c_host C) 8 []) with (@nil bool) in S0. rewrite app_nil_r in S0. subst M.
  rewrite octet_stream in R0 by exact He.
  destruct (update_n_partial 8 eq_refl ltac:(lia) W8 last p0 (octets_bits pre) []) as (p & E & Rp & A); auto.
  { clear - Ebb HL. cbn [length]. lia. }
  rewrite E.
  cbn [app] in Rp. pose proof (bs_acc C 8 _ _ _ Rp) as R. destruct Rp as [_ Rc Rs Rl Rh].
  set (a := b_acc C p) in *.
  assert (HM' : length (octets_bits pre) mod block_bits C = 0).
  { rewrite octets_bits_length, Ebb, Nat.mul_mod_distr_l by lia. lia. }
  unfold bsp_finish. rewrite Rs.
  destruct (0 <? length last) eqn:Q; [|lia].
  unfold bsp_process_block. fold a.
  cbn [acc_feed]. destruct (length last * 8 =? 0) eqn:Q2; [lia|].
  destruct (flush_spec C WF a (octets_bits pre) R) as (M0 & T & EM & Ht & Hc & H0 & HT & Hh & Hst & Hf).
  assert (T = []).
  { assert (K : length T = 0); [|destruct T; [reflexivity|discriminate]].
    rewrite EM, app_length in HM'. rewrite <- Nat.add_mod_idemp_l, H0, Nat.add_0_l in HM' by lia.
    rewrite Nat.mod_small in HM' by exact HT. exact HM'. }
  subst T. rewrite app_nil_r in EM. subst M0.
  unfold process_block_value.
  rewrite (cached_spec C WF (flush C a) (octets_bits pre) []); [|left; now rewrite app_nil_r|now rewrite app_nil_r|exact H0|exact Hbb].
  cbn [length Nat.eqb negb].
  destruct (length last * 8 =? block_bits C) eqn:Q3; [lia|].
  destruct (words_for_spec C WF (length last * 8)) as [K1 K2]; [lia|].
  destruct (words_for C (length last * 8) <=? c_words C) eqn:Q4; [|lia].
  eexists. split; [reflexivity|]. cbn [total cst cache]. split; [|split; [exact Hst|]].
  - rewrite Ht, (count_short _ Hs). unfold blen. rewrite octets_bits_length, app_length. f_equal. lia.
  - apply firstn_words; auto. apply (pack_block_ok C WF 8 eq_refl ltac:(lia) W8). exact Rc.
Qed.
End Partial.

(** SHA-3 and Keccak: a message of 2^64 bits is not a whole number of blocks. *)
Section Sponges.
Context (perm : list N -> list N) (HP : perm_correct perm) (bw d : nat) (sfx : list bool).
Context (padding : list N -> nat -> option (list N * bool)) (plast : list N -> nat -> option (list N)).
Context (Hbw : 0 < bw <= 25) (Hd8 : d mod 8 = 0) (Hd : d + 64 <= 1600)
  (Hdw : d / (64 * bw) * bw + bw <= 25).
Context (Hsfx : length sfx + 2 <= 8).
Context (Hpad : forall b seen, block_ok 64 bw b -> seen + (length sfx + 2) <= 64 * bw ->
  exists b3, padding b seen = Some (b3, true) /\ block_ok 64 bw b3 /\
    stream BOLB 64 b3 = firstn seen (stream BOLB 64 b) ++ sfx ++ [true] ++
                        repeat false (64 * bw - 2 - (seen + length sfx)) ++ [true]).
Notation C := (sponge_construction BOBB 64 bw (d / 8) (repeat 0%N 25) (keccak_process_block perm)
                 padding plast (keccak_finalizer perm bw d)).
Lemma sponge_lost M c : length M mod (64 * bw) = 0 -> block_ok 64 bw c ->
  c_digest C (absorbed C M) c 0 = Some (sponge_out bw d sfx M).
Proof.
  intros HM Hc. cbn [c_digest sponge_construction]. unfold sponge_digest.
  destruct (absorbed_string perm HP bw d sfx padding plast Hbw Hd8 Hd Hdw Hsfx Hpad M HM) as [A1 A2].
  rewrite N.mod_0_l by lia. cbn [N.eqb negb andb].
  pose proof (sponge_finish perm HP bw d sfx padding plast Hbw Hd8 Hd Hdw Hsfx Hpad (absorbed C M) c M []) as X.
  rewrite app_nil_r in X. apply X; auto. cbn [length]. lia.
Qed.
End Sponges.

Lemma both_lost d injb C H inj junk pre last :
  sponge_size d -> injector_contract BOLB 64 (keccak_words d) injb -> sponge_hash d injb C H ->
  injector_contract BOBB 64 (keccak_words d) inj -> block_ok 64 (keccak_words d) junk ->
  Forall (fits 8) (pre ++ last) -> (N.of_nat (8 * length (pre ++ last)) = 2 ^ 64)%N ->
  8 * length pre mod (1600 - 2 * d) = 0 -> 0 < 8 * length last < 1600 - 2 * d ->
  hash_once C inj 8 junk (pre ++ last) = Some (H pre).
Proof.
  intros Hd HIb HC HI Hj F Hn Hp Hl. destruct (sponge_side d Hd) as (S1 & S2 & S3 & S4).
  destruct (both_shape d Hd injb C H HC) as (E1 & E2 & E3 & WF).
  pose proof (keccak_words_bits d Hd) as Ek. rewrite <- Ek in Hp, Hl.
  assert (Ebv : block_values C 8 = 8 * keccak_words d) by (unfold block_values, block_bits; rewrite E2, E3; lia).
  destruct (hash_partial C inj WF ltac:(rewrite E1, E2, E3; exact HI) junk pre last) as (a & E & Et & Es & Ec); auto.
  - rewrite (both_host d injb C H HC). now right.
  - rewrite E2, E3. exact Hj.
  - rewrite Ebv. replace (64 * keccak_words d) with (8 * (8 * keccak_words d)) in Hp by lia.
    rewrite Nat.mul_mod_distr_l in Hp by lia. generalize dependent (length pre mod (8 * keccak_words d)). intros; lia.
  - rewrite app_length in Hn. lia.
  - unfold block_bits. rewrite E2, E3. lia.
  - unfold hash_once. rewrite E. unfold acc_result. rewrite Es, Et, Hn. rewrite E2, E3 in Ec.
    change (wrap64 (2 ^ 64)) with 0%N. clear Hn Et.
    assert (HM : length (octets_bits pre) mod (64 * keccak_words d) = 0) by (rewrite octets_bits_length; exact Hp).
    apply Forall_app in F. destruct F as [F1 F2].
    destruct HC as [|perm HP].
    + rewrite <- sha3_octets by auto. apply (sponge_lost permute permute_correct); auto.
      intros b seen Hb Hs. cbn [length] in Hs |- *. apply sha3_padding_spec; auto; lia.
    + rewrite <- keccak_octets by auto. apply (sponge_lost perm HP); auto.
      * cbn. lia.
      * intros b seen Hb Hs. cbn [length] in Hs |- *. apply keccak_padding_spec; auto; lia.
Qed.

(** BLAKE2b. *)
Lemma blake2b_lost db ic inj junk pre last last' :
  db mod 8 = 0 /\ 0 < db <= 512 -> injector_contract LOBB 64 16 ic ->
  injector_contract LOBB 64 16 inj -> block_ok 64 16 junk ->
  Forall (fits 8) (pre ++ last) -> Forall (fits 8) (pre ++ last') -> length last = 128 -> length last' = 128 ->
  (N.of_nat (8 * length (pre ++ last)) mod 2 ^ 64 = 0)%N ->
  hash_once (blake2b ic db) inj 8 junk (pre ++ last) = hash_once (blake2b ic db) inj 8 junk (pre ++ last') /\
  hash_once (blake2b ic db) inj 8 junk (pre ++ last) <> None.
Proof.
  intros Hdb HIc HI Hj F F' Hl Hl' Hn.
  assert (WF : wf_construction (blake2b ic db)) by (apply blake2b_wf; tauto).
  assert (H0 : length (octets_bits pre) mod block_bits (blake2b ic db) = 0).
  { rewrite octets_bits_length. rewrite app_length, Hl in Hn. change (block_bits (blake2b ic db)) with 1024.
    apply N.div_exact in Hn; [|discriminate]. set (q := (_ / 2 ^ 64)%N) in Hn. clearbody q.
    change (2 ^ 64)%N with (1024 * 18014398509481984)%N in Hn. lia. }
  assert (K : forall l, length l = 128 -> Forall (fits 8) (pre ++ l) ->
    hash_once (blake2b ic db) inj 8 junk (pre ++ l) =
    Some (firstn (db / 8) (pack_from LOBB 64 8
      (blake2b_process_block (absorbed (blake2b ic db) (octets_bits pre)) (repeat 0%N 16) 0 0xFFFFFFFFFFFFFFFF)))).
  { intros l L Fl.
    destruct (once_state (blake2b ic db) inj WF HI junk (pre ++ l)) as (a & R & E); auto.
    rewrite E. rewrite octets_bits_app in R.
    apply strict_whole in R; auto; [|rewrite octets_bits_length, L; reflexivity].
    destruct R as [R1 R2 R3 R4 R5 R6 R7]. unfold acc_result.
    assert (Et : total a = 0%N).
    { rewrite R1, <- octets_bits_app, count_octets, app_length, L. rewrite app_length, Hl in Hn. exact Hn. }
    rewrite Et. cbn [c_digest blake2b haifa_construction]. unfold haifa_digest.
    cbn [N.eqb negb andb]. unfold blake2b_padding. cbn [N.eqb orb]. rewrite N.div_0_l, !N.mod_0_l by discriminate.
    cbn [N.eqb negb N.to_nat Nat.add firstn app Nat.sub]. do 2 f_equal. rewrite R7. reflexivity. }
  rewrite (K last Hl F), (K last' Hl' F'). split; [reflexivity|discriminate].
Qed.

(** Length fields of 64 bits hold the length modulo 2^64. *)
Lemma word_stream_mod e w x : 0 < w -> w mod 8 = 0 -> word_stream e w (x mod 2 ^ N.of_nat w) = word_stream e w x.
Proof.
  intros Hw H8. unfold word_stream. apply map_ext_in. intros i Hi. apply in_seq in Hi.
  apply N.mod_pow2_bits_low. pose proof (bitpos_lt e w i H8 ltac:(lia)). lia.
Qed.

Lemma md_any_64 e w bw dw iv comp inj junk os :
  md_params w bw 64 -> injector_contract e w bw inj -> block_ok w bw junk ->
  e = BOBB \/ e = LOBB -> Forall (fits 8) os ->
  (2 ^ 64 mod N.of_nat (w * bw) = 0)%N -> (N.of_nat (8 * length os) mod 2 ^ 64 <> 0)%N ->
  hash_once (mdC e w bw 64 dw iv comp inj) inj 8 junk os =
  Some (md_hash e w bw 64 (w * dw) one_marker iv comp (octets_bits os)) /\
  hash_once (tgC e w bw 64 dw iv comp inj) inj 8 junk os =
  Some (md_hash e w bw 64 (w * dw) tiger_marker iv comp (octets_bits os)).
Proof.
  intros MP HI Hj He Hf Hd Hn.
  destruct (md_any e w bw 64 dw iv comp inj junk os MP HI Hj He Hf Hd Hn) as [E1 E2].
  assert (K : forall mk, md_hash_as e w bw 64 (w * dw) mk iv comp (N.of_nat (8 * length os) mod 2 ^ 64) (octets_bits os) =
                         md_hash e w bw 64 (w * dw) mk iv comp (octets_bits os)).
  { intros mk. unfold md_hash_as, md_hash, md_pad_as, md_pad. rewrite octets_bits_length.
    rewrite <- (word_stream_mod e 64 (N.of_nat (8 * length os)) ltac:(lia) eq_refl). reflexivity. }
  now rewrite E1, E2, !K.
Qed.

Lemma md_lost_pair e w bw lb dw iv comp inj junk pre last last' :
  md_params w bw lb -> injector_contract e w bw inj -> block_ok w bw junk ->
  e = BOBB \/ e = LOBB -> Forall (fits 8) (pre ++ last) -> Forall (fits 8) (pre ++ last') ->
  (2 ^ 64 mod N.of_nat (w * bw) = 0)%N ->
  8 * length last = w * bw -> 8 * length last' = w * bw -> (N.of_nat (8 * length (pre ++ last)) mod 2 ^ 64 = 0)%N ->
  (hash_once (mdC e w bw lb dw iv comp inj) inj 8 junk (pre ++ last) =
   hash_once (mdC e w bw lb dw iv comp inj) inj 8 junk (pre ++ last') /\
   hash_once (mdC e w bw lb dw iv comp inj) inj 8 junk (pre ++ last) <> None) /\
  (hash_once (tgC e w bw lb dw iv comp inj) inj 8 junk (pre ++ last) =
   hash_once (tgC e w bw lb dw iv comp inj) inj 8 junk (pre ++ last') /\
   hash_once (tgC e w bw lb dw iv comp inj) inj 8 junk (pre ++ last) <> None).
Proof.
  intros MP HI Hj He F F' Hd Hl Hl' Hn.
  destruct (md_lost e w bw lb dw iv comp inj junk pre last MP HI Hj He F Hd Hl Hn) as [E1 E2].
  destruct (md_lost e w bw lb dw iv comp inj junk pre last' MP HI Hj He F' Hd Hl') as [E1' E2'].
  { replace (length (pre ++ last')) with (length (pre ++ last)) by (rewrite !app_length; lia). exact Hn. }
  rewrite E1, E1', E2, E2'. repeat split; discriminate.
Qed.

(** Such messages exist. *)
Definition octets_of_length (n : N) (x : N) : list N := repeat x (N.to_nat n).
Lemma long_ok n x : (x < 256)%N -> Forall (fits 8) (octets_of_length n x) /\ length (octets_of_length n x) = N.to_nat n.
Proof.
  intros H. split; [|apply repeat_length]. unfold octets_of_length. generalize (N.to_nat n) as k.
  induction k as [|k IH]; [constructor|]. cbn [repeat]. constructor; [exact H|exact IH].
Qed.
Lemma long_example :
  let pre := octets_of_length (2 ^ 61 - 64) 0 in let last := octets_of_length 64 1 in let last' := octets_of_length 64 2 in
  md_params 32 16 64 /\ Forall (fits 8) (pre ++ last) /\ Forall (fits 8) (pre ++ last') /\ last <> last' /\
  (2 ^ 64 mod N.of_nat (32 * 16) = 0)%N /\ 8 * length last = 32 * 16 /\ 8 * length last' = 32 * 16 /\
  (N.of_nat (8 * length (pre ++ last)) mod 2 ^ 64 = 0)%N.
Proof.
  cbv zeta. destruct (long_ok (2 ^ 61 - 64) 0 eq_refl) as [F1 L1].
  destruct (long_ok 64 1 eq_refl) as [F2 L2]. destruct (long_ok 64 2 eq_refl) as [F3 L3].
  split; [apply md_example|]. split; [apply Forall_app; split; assumption|]. split; [apply Forall_app; split; assumption|].
  split; [intros Q; apply (f_equal (hd 0%N)) in Q; discriminate Q|]. split; [reflexivity|].
  split; [rewrite L2; reflexivity|]. split; [rewrite L3; reflexivity|].
  rewrite app_length, L1, L2.
  replace (N.of_nat (8 * (N.to_nat (2 ^ 61 - 64) + N.to_nat 64))) with (2 ^ 64)%N by lia. reflexivity.
Qed.
Lemma long_sponge_example d : In d [224; 256; 384; 512] ->
  exists k, let pre := octets_of_length (2 ^ 61 - k) 0 in let last := octets_of_length k 1 in
  Forall (fits 8) (pre ++ last) /\ (N.of_nat (8 * length (pre ++ last)) = 2 ^ 64)%N /\
  8 * length pre mod (1600 - 2 * d) = 0 /\ 0 < 8 * length last < 1600 - 2 * d.
Proof.
  intros Hd.
  assert (K : exists k, (k <= 2 ^ 61)%N /\ ((8 * (2 ^ 61 - k)) mod (1600 - 2 * N.of_nat d) = 0)%N /\ (0 < 8 * k < 1600 - 2 * N.of_nat d)%N).
  { exists (((8 * 2 ^ 61) mod (1600 - 2 * N.of_nat d)) / 8)%N.
    cbn in Hd. destruct Hd as [<-|[<-|[<-|[<-|[]]]]]; vm_compute; repeat split; intros Q; discriminate Q. }
  destruct K as (k & K1 & K2 & K3). exists k. cbv zeta.
  destruct (long_ok (2 ^ 61 - k) 0 eq_refl) as [F1 L1]. destruct (long_ok k 1 eq_refl) as [F2 L2].
  split; [apply Forall_app; split; assumption|]. rewrite app_length, L1, L2. split; [lia|]. split; [|lia].
  apply Nnat.Nat2N.inj. rewrite Nnat.Nat2N.inj_mod.
  replace (N.of_nat (8 * N.to_nat (2 ^ 61 - k))) with (8 * (2 ^ 61 - k))%N by lia.
  replace (N.of_nat (1600 - 2 * d)) with (1600 - 2 * N.of_nat d)%N by lia. exact K2.
Qed.
