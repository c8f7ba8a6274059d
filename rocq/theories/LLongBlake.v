(** BLAKE2b of messages of any length: proofs for C69. *)
From Coq Require Import NArith Arith List Bool Lia ZifyBool ZifyNat ZifyN ZArith.
From Verif Require Import SpecStream LStream MPack LInj MAcc LAcc LBsp MConstr SpecMD LMD LMDProps LHist.
From Verif Require Import SpecOctets SpecWords LWords SpecBlake2b MBlake2b LHaifa LBlake2b LBlake2bStmt SpecBlake2bLong LLong.
Import ListNotations.
Ltac Zify.zify_post_hook ::= Z.div_mod_to_equations.

Definition t61 (n : nat) : N := (N.of_nat n mod 2 ^ 61)%N.
Lemma wrap_octets n : wrap64 (N.of_nat (8 * n)) = (8 * t61 n)%N.
Proof.
  unfold wrap64, t61. change (2 ^ 64)%N with (8 * 2 ^ 61)%N. rewrite Nnat.Nat2N.inj_mul. change (N.of_nat 8) with 8%N.
  rewrite N.mul_mod_distr_l by discriminate. reflexivity.
Qed.
Lemma block_t61 h m n f : st8 h ->
  blake2b_process_block h m (wrap64 (N.of_nat (8 * n))) (flag f) = F h m (t61 n) f /\ st8 (F h m (t61 n) f).
Proof.
  intros Hh. rewrite wrap_octets.
  assert (L : (t61 n < 2 ^ 61)%N) by (apply N.mod_lt; discriminate).
  destruct (process_block_bits h m (8 * t61 n) f Hh) as [E K].
  { change (2 ^ 64)%N with (8 * 2 ^ 61)%N. revert L. generalize (2 ^ 61)%N. intros q L. lia. }
  assert (Ed : ((8 * t61 n + 7) / 8 = t61 n)%N) by (symmetry; apply (N.div_unique _ 8 _ 7); lia).
  rewrite Ed in E, K. split; assumption.
Qed.
Lemma counting_snoc t d : forall h i m, non_final_counting t h i (d ++ [m]) =
  F (non_final_counting t h i d) m (t ((i + length d + 1) * 128)) false.
Proof.
  induction d as [|b d IH]; intros h i m; cbn [app non_final_counting length].
  - now rewrite Nat.add_0_r.
  - rewrite IH. do 2 f_equal. lia.
Qed.
Lemma counting_nat h i d : non_final_counting N.of_nat h i d = non_final h i d.
Proof. revert h i. induction d as [|b d IH]; intros h i; [reflexivity|]. cbn [non_final_counting non_final]. apply IH. Qed.

Section D.
Context (inj : injector) (db : nat) (Hdb : 0 < db <= 512) (H8 : db mod 8 = 0) (HI : injector_contract LOBB 64 16 inj).
Notation C := (blake2b inj db).
Notation h0 := (initial_state (db / 8)).

Lemma absorb_counting bs : forall h i, st8 h -> Forall (fun b => length b = 128 /\ Forall (fits 8) b) bs ->
  absorb C h (N.of_nat (8 * (i * 128))) (map octets_bits bs) = non_final_counting t61 h i (map (le_words 8) bs) /\
  st8 (non_final_counting t61 h i (map (le_words 8) bs)).
Proof.
  induction bs as [|b bs IH]; intros h i Hh HF; cbn [map absorb non_final_counting]; [auto|].
  inversion HF as [|? ? [Lb Fb] HF']; subst.
  change (block_bits C) with 1024.
  replace (N.of_nat (8 * (i * 128)) + N.of_nat 1024)%N with (N.of_nat (8 * ((i + 1) * 128))) by lia.
  change (c_proc C) with (fun s b seen => blake2b_process_block s b seen 0%N).
  change (c_endian C) with LOBB. change (c_word C) with 64. cbv beta.
  rewrite (le_words_stream 8) by (auto; lia).
  destruct (block_t61 h (le_words 8 b) ((i + 1) * 128) false Hh) as [E K].
  change (flag false) with 0%N in E. rewrite E. now apply IH.
Qed.
Lemma absorbed_counting os : Forall (fits 8) os ->
  absorbed C (octets_bits os) = non_final_counting t61 h0 0 (map (le_words 8) (chunks 128 os)) /\
  st8 (non_final_counting t61 h0 0 (map (le_words 8) (chunks 128 os))).
Proof.
  intros HF. unfold absorbed. change (block_bits C) with (8 * 128). rewrite chunks_octets by lia.
  change (c_init C) with h0. apply (absorb_counting (chunks 128 os) h0 0).
  - now apply h0_ok.
  - apply Forall_forall. intros b Hb. split.
    + pose proof (chunks_Forall 128 os ltac:(lia)) as K. rewrite Forall_forall in K. now apply K.
    + pose proof (chunk_fits 128 (length os / 128) os HF) as K. rewrite Forall_forall in K. now apply K.
Qed.

(** The padding looks at the count only to find its place in the block. *)
Lemma padding_same b n n' : n <> 0%N -> n' <> 0%N -> (n mod 1024 = n' mod 1024)%N ->
  blake2b_padding inj 64 16 b n = blake2b_padding inj 64 16 b n'.
Proof.
  intros Hn Hn' E. unfold blake2b_padding. change (N.of_nat (64 * 16)) with 1024%N. change (N.of_nat 64) with 64%N. change (N.of_nat 16) with 16%N.
  assert (E1 : (n mod 64 = n' mod 64)%N) by lia. assert (E2 : ((n / 64) mod 16 = (n' / 64) mod 16)%N) by lia.
  rewrite E, E1, E2. destruct (N.eqb_spec n 0); [contradiction|]. destruct (N.eqb_spec n' 0); [contradiction|]. reflexivity.
Qed.

Lemma mod_1024 x : ((x mod 2 ^ 64) mod 1024 = x mod 1024)%N.
Proof.
  change (2 ^ 64)%N with (1024 * 2 ^ 54)%N. rewrite N.mod_mul_r by discriminate.
  rewrite N.mul_comm, N.mod_add by discriminate. now rewrite N.mod_mod.
Qed.

Lemma digest_counting a os : Forall (fits 8) os -> strictR C a (octets_bits os) -> (N.of_nat (8 * length os) mod 2 ^ 64 <> 0)%N ->
  acc_result C a = Some (BLAKE2b_counting t61 (db / 8) os).
Proof.
  intros HF (M0 & T & E & R & FL) Hn. destruct R as [R1 R2 R3 R4 R5 R6 R7].
  change (block_bits C) with 1024 in *. change (c_endian C) with LOBB in *. change (c_word C) with 64 in *. change (c_words C) with 16 in *.
  assert (L : 8 * length os = length M0 + length T) by (rewrite <- octets_bits_length, E, app_length; reflexivity).
  set (A := firstn (length M0 / 8) os). set (U := skipn (length M0 / 8) os).
  assert (EAU : os = A ++ U) by (symmetry; apply firstn_skipn).
  assert (L8 : 8 * (length M0 / 8) = length M0) by lia.
  assert (LA : length A = length M0 / 8) by (unfold A; rewrite firstn_length; lia).
  assert (EA : octets_bits A = M0).
  { apply (f_equal (firstn (length M0))) in E. rewrite firstn_app_exact in E by reflexivity. rewrite <- E, EAU, octets_bits_app.
    rewrite firstn_app_exact; [reflexivity|]. rewrite octets_bits_length. lia. }
  assert (EU : octets_bits U = T).
  { rewrite EAU, octets_bits_app, EA in E. now apply app_inv_head in E. }
  assert (LU : 8 * length U = length T) by (rewrite <- EU, octets_bits_length; reflexivity).
  assert (FA : Forall (fits 8) A) by (rewrite EAU in HF; apply Forall_app in HF; apply HF).
  assert (FU : Forall (fits 8) U) by (rewrite EAU in HF; apply Forall_app in HF; apply HF).
  assert (LT : length T <> 0).
  { intros Z. destruct T; [|discriminate]. rewrite (R5 eq_refl) in L. cbn [length] in L. rewrite L in Hn. apply Hn. reflexivity. }
  assert (Lo : length os = length A + length U) by (rewrite EAU at 1; apply app_length).
  assert (LA128 : length A mod 128 = 0) by lia.
  assert (Et : total a = wrap64 (N.of_nat (8 * length os))).
  { rewrite R1, <- E. unfold count, blen. now rewrite octets_bits_length. }
  assert (Ht0 : total a <> 0%N) by (rewrite Et; exact Hn).
  assert (Em : (total a mod 1024 = N.of_nat (length T) mod 1024)%N).
  { rewrite Et. unfold wrap64. rewrite mod_1024. rewrite L. lia. }
  destruct (absorbed_counting A FA) as [EAb KA]. rewrite EA in EAb.
  unfold acc_result. cbn [c_digest blake2b haifa_construction]. unfold haifa_digest.
  change (N.of_nat (64 * 16)) with 1024%N. rewrite Em, R7, EAb.
  assert (Z : (total a =? 0)%N = false) by (destruct (N.eqb_spec (total a) 0); [contradiction|reflexivity]). rewrite Z. cbn [negb andb].
  unfold BLAKE2b_counting, leading_blocks. cbv zeta.
  destruct (Nat.eq_dec (length T) 1024) as [E1|E1].
  - rewrite E1. change (N.of_nat 1024 mod 1024 =? 0)%N with true. cbv iota.
    assert (EP : blake2b_padding inj 64 16 (cache a) (total a) = Some (cache a)).
    { unfold blake2b_padding. change (N.of_nat (64 * 16)) with 1024%N. rewrite Z, Em, E1. reflexivity. }
    rewrite EP.
    assert (EC : cache a = le_words 8 U).
    { rewrite <- (block_words_stream LOBB 64 16 (cache a)) by (auto; lia).
      rewrite <- (le_words_stream 8 U) by (auto; lia). change (8 * 8) with 64. f_equal. rewrite EU, <- R6, E1.
      rewrite firstn_all2; [reflexivity|]. rewrite (block_stream_length LOBB 64 16) by auto. lia. }
    assert (ED : data_blocks os = map (le_words 8) (chunks 128 A) ++ [le_words 8 U]).
    { unfold data_blocks, data_octets. destruct (Nat.eqb_spec (length os) 0); [lia|].
      replace ((128 - length os mod 128) mod 128) with 0 by lia. cbn [repeat]. rewrite app_nil_r, EAU.
      rewrite chunks_snoc, map_app by lia. reflexivity. }
    assert (EB : ((length os mod 128 =? 0) && negb (length os =? 0)) = true).
    { destruct (Nat.eqb_spec (length os mod 128) 0); [|lia]. destruct (Nat.eqb_spec (length os) 0); [lia|reflexivity]. }
    rewrite EB, ED, last_last, counting_snoc, map_length, chunks_length, Nat.add_0_l.
    replace ((length A / 128 + 1) * 128) with (length os) by lia.
    rewrite EC, Et. change 0xFFFFFFFFFFFFFFFF%N with (flag true).
    destruct (block_t61 (non_final_counting t61 h0 0 (map (le_words 8) (chunks 128 A))) (le_words 8 U) (length os) false KA) as [G1 K1].
    change (flag false) with 0%N in G1. rewrite G1.
    destruct (block_t61 _ (le_words 8 U) (length os) true K1) as [G2 _]. rewrite G2.
    rewrite (pack_le 8) by lia. reflexivity.
  - assert (B : (N.of_nat (length T) mod 1024 =? 0)%N = false).
    { destruct (N.eqb_spec (N.of_nat (length T) mod 1024) 0); [lia|reflexivity]. }
    rewrite B. cbv iota.
    rewrite (padding_same (cache a) (total a) (blen T)); auto; [|unfold blen; lia].
    destruct (haifa_padding_spec LOBB 64 16 (fun h _ _ _ => h) 0%N inj eq_refl ltac:(lia) ltac:(lia) HI [] T (cache a) R2 R6 eq_refl) as (b1 & P1 & P2 & P3); auto; try lia.
    { unfold short, blen. cbn [app]. lia. }
    cbn [app] in P1. rewrite P1.
    assert (EW : b1 = le_words 8 (U ++ repeat 0%N (128 - length U))).
    { rewrite <- (block_words_stream LOBB 64 16 b1) by (auto; lia). rewrite P3.
      rewrite <- (le_words_stream 8) by first [lia | apply Forall_app; split; [exact FU|apply (block_ok_zeros 8 (128 - length U))]].
      change (8 * 8) with 64. f_equal. rewrite octets_bits_app, EU. f_equal. unfold octets_bits. rewrite stream_zeros. f_equal. lia. }
    assert (ED : data_blocks os = map (le_words 8) (chunks 128 A) ++ [le_words 8 (U ++ repeat 0%N (128 - length U))]).
    { unfold data_blocks, data_octets. destruct (Nat.eqb_spec (length os) 0); [lia|].
      replace ((128 - length os mod 128) mod 128) with (128 - length U) by lia. rewrite EAU, <- app_assoc.
      rewrite chunks_snoc, map_app by (rewrite ?app_length, ?repeat_length; lia). reflexivity. }
    assert (EB : ((length os mod 128 =? 0) && negb (length os =? 0)) = false).
    { destruct (Nat.eqb_spec (length os mod 128) 0); [lia|reflexivity]. }
    rewrite EB, ED, last_last, removelast_last, EW, Et. change 0xFFFFFFFFFFFFFFFF%N with (flag true).
    destruct (block_t61 _ (le_words 8 (U ++ repeat 0%N (128 - length U))) (length os) true KA) as [G2 _]. rewrite G2.
    rewrite (pack_le 8) by lia. reflexivity.
Qed.

(** A whole number of 2^64 bits. *)
Lemma digest_zero a pre last : Forall (fits 8) pre -> strictR C a (octets_bits (pre ++ last)) -> length last = 128 ->
  (N.of_nat (8 * length (pre ++ last)) mod 2 ^ 64 = 0)%N ->
  acc_result C a = Some (BLAKE2b_zero_end t61 (db / 8) pre).
Proof.
  intros HF R Hl Hn. rewrite octets_bits_app in R.
  assert (H0 : length (octets_bits pre) mod block_bits C = 0).
  { rewrite octets_bits_length. rewrite app_length, Hl in Hn. change (block_bits C) with 1024.
    apply N.div_exact in Hn; [|discriminate]. set (q := (_ / 2 ^ 64)%N) in Hn. clearbody q.
    change (2 ^ 64)%N with (1024 * 18014398509481984)%N in Hn. lia. }
  apply strict_whole in R; auto; [|now apply blake2b_wf|rewrite octets_bits_length, Hl; reflexivity].
  destruct R as [R1 R2 R3 R4 R5 R6 R7].
  assert (Et : total a = 0%N) by (rewrite R1, <- octets_bits_app, count_octets; exact Hn).
  destruct (absorbed_counting pre HF) as [EAb KA].
  unfold acc_result. rewrite Et, R7. cbn [c_digest blake2b haifa_construction]. unfold haifa_digest.
  cbn [N.eqb negb andb]. unfold blake2b_padding. cbn [N.eqb orb]. rewrite N.div_0_l, !N.mod_0_l by discriminate.
  cbn [N.eqb negb N.to_nat Nat.add firstn app Nat.sub].
  destruct (block_t61 _ (repeat 0%N 16) 0 true KA) as [G2 _]. change (wrap64 (N.of_nat (8 * 0))) with 0%N in G2. change (t61 0) with 0%N in G2.
  change (flag true) with 0xFFFFFFFFFFFFFFFF%N in G2. unfold BLAKE2b_zero_end. rewrite EAb, <- G2, (pack_le 8) by lia. reflexivity.
Qed.
End D.

Lemma every_length db ic inj junk os : db mod 8 = 0 /\ 0 < db <= 512 -> injector_contract LOBB 64 16 ic ->
  injector_contract LOBB 64 16 inj -> block_ok 64 16 junk -> Forall (fits 8) os -> os <> [] ->
  hash_once (blake2b ic db) inj 8 junk os =
  Some (if (N.of_nat (8 * length os) mod 2 ^ 64 =? 0)%N then BLAKE2b_zero_end t61 (db / 8) (firstn (length os - 128) os)
        else BLAKE2b_counting t61 (db / 8) os).
Proof.
  intros [H8 Hdb] HIc HI Hj F Hne.
  destruct (once_state (blake2b ic db) inj (blake2b_wf ic db Hdb H8) HI junk os) as (a & R & E); auto.
  rewrite E. destruct (N.eqb_spec (N.of_nat (8 * length os) mod 2 ^ 64) 0) as [Z|Z].
  - assert (L : 128 <= length os).
    { destruct os as [|o os']; [contradiction|]. apply N.div_exact in Z; [|discriminate]. set (q := (_ / 2 ^ 64)%N) in Z. clearbody q.
      change (2 ^ 64)%N with (1024 * 18014398509481984)%N in Z. cbn [length] in *. destruct q; lia. }
    rewrite <- (firstn_skipn (length os - 128) os) in R, Z, F. apply Forall_app in F.
    apply (digest_zero ic db Hdb H8 a _ (skipn (length os - 128) os)); auto; try apply F. rewrite skipn_length. lia.
  - now apply (digest_counting ic db Hdb H8 HIc).
Qed.
Lemma counting_observed nn os : BLAKE2b_counting N.of_nat nn os = BLAKE2b_observed nn os.
Proof.
  unfold BLAKE2b_counting, BLAKE2b_observed, leading_blocks, BLAKE2b. cbv zeta. rewrite counting_nat. fold (initial_state nn).
  destruct ((length os mod 128 =? 0) && negb (length os =? 0)) eqn:B.
  - apply andb_true_iff in B. destruct B as [B1 B2].
    assert (ED : data_blocks os = map (le_words 8) (chunks 128 (firstn (length os - 128) os)) ++ [le_words 8 (skipn (length os - 128) os)]).
    { unfold data_blocks, data_octets. destruct (Nat.eqb_spec (length os) 0); [discriminate|]. replace ((128 - length os mod 128) mod 128) with 0 by lia.
      cbn [repeat]. rewrite app_nil_r. rewrite <- (firstn_skipn (length os - 128) os) at 1.
      rewrite chunks_snoc, map_app; [reflexivity|lia|rewrite firstn_length; lia|rewrite skipn_length; lia]. }
    rewrite ED, last_last. reflexivity.
  - do 2 f_equal.
    assert (Hd : data_blocks os <> []).
    { unfold data_blocks, data_octets. intros E. apply map_eq_nil in E. apply (f_equal (@length _)) in E. rewrite chunks_length, app_length, repeat_length in E. cbn [length] in E.
      destruct (Nat.eqb_spec (length os) 0); lia. }
    destruct (exists_last Hd) as (d & m & E). rewrite E, last_last, removelast_last, process_snoc. reflexivity.
Qed.
