(** * Keccak digests computed with the assembly permutations *)
From Coq Require Import NArith Arith List Bool Lia ZifyBool ZifyNat ZifyN ZArith.
From Verif Require Import SpecStream SpecWords SpecHash SpecOctets SpecSponge SpecKeccak MPack MAcc MConstr MKeccak MAsm MKeccakX86 MKeccakArm MKeccakAvx2 MKeccakAvx512 MKeccakSelect.
From Verif Require Import LArith LWords LInj LBsp LAcc LMD LGen LKeccakP LSponge LSpongeStmt.
From Verif Require LStream LAsmX86 LAsmArm LAsmAvx2 LAsmAvx512.
Import ListNotations.
#[local] Opaque keccak_words.
Ltac Zify.zify_post_hook ::= Z.div_mod_to_equations.

(** ** One block, whatever the permutation *)
Section Short.
Context (perm : list N -> list N) (d : nat) (Hd : sponge_size d).
Context (injb : injector) (HIb : injector_contract BOLB 64 (keccak_words d) injb).
Notation bw := (keccak_words d).
Notation bb := (64 * keccak_words d).
Notation C := (keccak_1600 perm injb d).

Definition short_block (M : list bool) : list N :=
  words_of_stream BOLB 64 (lsb M ++ [true] ++ repeat false (bb - 2 - length M) ++ [true]).
Definition short_out (M : list bool) : list N :=
  firstn (d / 8) (pack_from BOBB 64 8 (keccak_finalizer perm bw d
    (keccak_process_block perm (repeat 0%N 25) (short_block M)))).

Lemma short_correct : digest_correct C (fun M => length M mod 8 = 0 /\ length M < bb) short_out.
Proof.
  intros a M (M0 & T & -> & R & F) Hshort [H8 Hlen]. destruct R.
  pose proof (sponge_side d Hd) as HS.
  assert (Hbb : 0 < bb) by lia.
  unfold acc_result. cbn [c_digest keccak_1600 sponge_construction]. unfold sponge_digest.
  rewrite rf_total, (count_short _ Hshort), rf_state.
  change (block_bits C) with bb in *. change (c_endian C) with BOBB in *. change (c_word C) with 64 in *.
  change (c_words C) with bw in *.
  rewrite app_length in Hlen.
  assert (EM : length M0 = 0).
  { rewrite Nat.mod_small in rf_M0 by lia. exact rf_M0. }
  destruct M0; [|discriminate]. cbn [app length Nat.add] in *.
  assert (Eseen : N.to_nat (blen T mod N.of_nat bb) = length T).
  { unfold blen. rewrite <- Nnat.Nat2N.inj_mod, Nnat.Nat2N.id. apply Nat.mod_small. lia. }
  rewrite Eseen.
  assert (Hc : negb (blen T =? 0)%N && (length T =? 0) = false).
  { unfold blen. destruct (length T); reflexivity || (cbn [Nat.eqb]; apply andb_false_r). }
  rewrite Hc.
  assert (HT2 : length T + 2 <= bb) by lia.
  destruct (keccak_padding_spec injb bw HIb (cache a) (length T)) as (b1 & E1 & Hb1 & S1); auto.
  rewrite E1. cbv zeta iota.
  assert (Eb : b1 = short_block T).
  2: { rewrite Eb. assert (EA : absorbed C [] = repeat 0%N 25).
       { unfold absorbed, chunks. change (length (@nil bool)) with 0. rewrite Nat.div_0_l; [reflexivity|].
         change (block_bits C) with bb. clear - Hbb. intros E. rewrite E in Hbb. exact (Nat.lt_irrefl _ Hbb). }
       rewrite EA. reflexivity. }
  clear E1. unfold short_block.
  assert (ET : lsb T = firstn (length T) (stream BOLB 64 (cache a))).
  { rewrite stream_BOLB by (auto; lia). rewrite <- lsb_firstn; auto.
    - now rewrite rf_head.
    - rewrite (block_stream_length BOBB 64 bw) by auto. lia.
    - rewrite (block_stream_length BOBB 64 bw) by auto. lia. }
  rewrite ET. rewrite Nat.add_0_r in S1. cbn [app] in S1 |- *. rewrite <- S1.
  pose proof (block_stream_length BOLB 64 _ _ Hb1) as LB. apply (LStream.stream_inj BOLB 64); [reflexivity|lia|apply Hb1|apply LStream.words_of_stream_fits|].
  symmetry. apply LStream.stream_words_of_stream; [reflexivity|lia|]. rewrite LB. lia.
Qed.

Lemma short_once inj junk os : injector_contract BOBB 64 bw inj -> block_ok 64 bw junk ->
  Forall (fits 8) os -> 8 * length os < bb ->
  hash_once C inj 8 junk os = Some (short_out (octets_bits os)).
Proof.
  intros HI Hj Hf Hl. pose proof (keccak_words_bits d Hd) as HB.
  apply (gen_once_octets C inj (keccak_wf perm d Hd injb)) with (ok := fun M => length M mod 8 = 0 /\ length M < bb)
    (D := short_out) (okO := fun os => 8 * length os < bb) (H := fun os => short_out (octets_bits os)); auto.
  - exact short_correct.
  - intros os' H1 H2. rewrite octets_bits_length. split; [|exact H2]. rewrite Nat.mul_comm. apply Nat.mod_mul. discriminate.
  - apply N.le_lt_trans with (N.of_nat 1600); [|reflexivity]. lia.
Qed.
End Short.

(** ** The platforms *)
Lemma some_eq {A} (a b : A) : Some a = Some b -> b = a.
Proof. congruence. Qed.

Lemma platform_permute st r : block_ok 64 25 st -> platform_result st r -> r = permute st.
Proof.
  intros Hst [|rs c0 b0 r' H1 H2 H3 E|rs stack r' H1 H2 E|rounds rs vs r' H1 H2 H3 H4 H5 E]; [reflexivity| | |].
  - apply some_eq. rewrite <- E. symmetry. apply LAsmX86.x86_permute_ok; auto.
  - apply some_eq. rewrite <- E. symmetry. apply LAsmArm.arm_permute_ok; auto.
  - apply some_eq. rewrite <- E. symmetry. apply LAsmAvx2.avx2_permute_ok; auto.
Qed.

Lemma platforms d injb inj junk os perm :
  sponge_size d -> injector_contract BOLB 64 (keccak_words d) injb ->
  injector_contract BOBB 64 (keccak_words d) inj -> block_ok 64 (keccak_words d) junk ->
  Forall (fits 8) os -> (N.of_nat (8 * length os) < 2 ^ 64)%N ->
  (forall st, block_ok 64 25 st -> platform_result st (perm st)) ->
  hash_once (keccak_1600 perm injb d) inj 8 junk os = Some (bits_octets_lsb (Keccak d (octets_bits_lsb os))).
Proof.
  intros H1 H2 H3 H4 H5 H6 HP. apply (both_once_octets d) with (injb := injb) (H := Keccak_octets d); auto.
  apply SH_keccak. intros st Hst. apply platform_permute; auto.
Qed.

(** ** AVX-512: different messages, the same digest *)
Lemma skipn_skipn_add {A} n m (l : list A) : skipn n (skipn m l) = skipn (n + m) l.
Proof.
  rewrite Nat.add_comm. revert l; induction m as [|m IH]; intros l; [reflexivity|]. destruct l; [now rewrite !skipn_nil|]. cbn [skipn Nat.add]. apply IH.
Qed.
Lemma nth_chunk {A} n : forall m (l : list A) i, i < m -> nth i (chunk n m l) [] = firstn n (skipn (n * i) l).
Proof.
  induction m as [|m IH]; intros l i H; [lia|]. destruct i; cbn [chunk nth].
  - now rewrite Nat.mul_0_r.
  - rewrite IH by lia. replace (n * S i) with (n * i + n) by lia. now rewrite skipn_skipn_add.
Qed.

Lemma nth_words e w s i : 0 < w -> i < length s / w ->
  nth i (words_of_stream e w s) 0%N = stream_word e w (firstn w (skipn (w * i) s)).
Proof.
  intros Hw Hi. unfold words_of_stream. rewrite (nth_indep _ 0%N (stream_word e w [])).
  - rewrite map_nth. unfold chunks. now rewrite nth_chunk.
  - rewrite map_length. unfold chunks. now rewrite LStream.chunk_length.
Qed.

Section Collide.
Context (d : nat) (Hd : sponge_size d).
Notation bb := (64 * keccak_words d).
Context (os os' : list N) (Hf : Forall (fits 8) os) (Hf' : Forall (fits 8) os') (HL : length os = length os') (Hl : 8 * length os < bb).
Context (Hsame : forall p, p / 8 mod 5 < 2 -> nth p os 0%N = nth p os' 0%N).

Lemma lsb_nth (l : list N) j : j < 8 * length l -> Forall (fits 8) l ->
  nth j (lsb (octets_bits l)) false = N.testbit (nth (j / 8) l 0%N) (N.of_nat (bitpos LOLB 8 (j mod 8))).
Proof. intros H F. rewrite lsb_octets by auto. unfold octets_bits_lsb. apply LMDStmt.nth_stream8. exact H. Qed.

Lemma short_block_length l : 8 * length l < bb -> length (lsb (octets_bits l) ++ [true] ++ repeat false (bb - 2 - length (octets_bits l)) ++ [true]) = bb.
Proof.
  intros H. rewrite !app_length, repeat_length, lsb_length, octets_bits_length; [cbn [length]; lia|].
  rewrite octets_bits_length. lia.
Qed.

Lemma short_block_same i : i mod 5 < 2 ->
  nth i (short_block d (octets_bits os)) 0%N = nth i (short_block d (octets_bits os')) 0%N.
Proof.
  intros Hi. unfold short_block.
  pose proof (short_block_length os Hl) as L1. pose proof (short_block_length os' ltac:(now rewrite <- HL)) as L2.
  destruct (le_lt_dec (keccak_words d) i) as [Hg|Hg].
  - rewrite !nth_overflow; auto; unfold words_of_stream; rewrite map_length; unfold chunks; rewrite LStream.chunk_length, ?L1, ?L2;
      rewrite Nat.mul_comm, Nat.div_mul by discriminate; exact Hg.
  - rewrite !nth_words by lia.
    f_equal. apply (nth_ext _ _ false false).
    + rewrite !firstn_length, !skipn_length, L1, L2. reflexivity.
    + intros j Hj. rewrite firstn_length, skipn_length, L1 in Hj.
      assert (Hj64 : j < 64) by (apply Nat.min_glb_lt_iff in Hj; tauto).
      rewrite !nth_firstn_lt, !nth_skipn_add by auto.
      assert (E1 : length (lsb (octets_bits os)) = 8 * length os) by (rewrite lsb_length; rewrite octets_bits_length; lia).
      assert (E2 : length (lsb (octets_bits os')) = 8 * length os) by (rewrite lsb_length; rewrite octets_bits_length; lia).
      destruct (le_lt_dec (8 * length os) (64 * i + j)) as [G|G].
      * rewrite (app_nth2 (lsb (octets_bits os))), (app_nth2 (lsb (octets_bits os'))) by lia. rewrite E1, E2, !octets_bits_length, HL. reflexivity.
      * rewrite !app_nth1, !lsb_nth by (auto; lia). f_equal. apply Hsame.
        replace ((64 * i + j) / 8 / 8) with i by lia. exact Hi.
Qed.

Lemma short_block_words l : 8 * length l < bb -> length (short_block d (octets_bits l)) = keccak_words d.
Proof.
  intros H. unfold short_block, words_of_stream. rewrite map_length. unfold chunks. rewrite LStream.chunk_length, short_block_length by auto.
  rewrite Nat.mul_comm. apply Nat.div_mul. discriminate.
Qed.

Lemma nth_xor_state b i : length b <= 25 ->
  nth i (map bswap64 (map (fun p => N.lxor (fst p) (snd p)) (combine (firstn (length b) (repeat 0%N 25)) b) ++
     skipn (length b) (repeat 0%N 25))) 0%N = if i <? 25 then bswap64 (nth i b 0%N) else 0%N.
Proof.
  intros Hb. rewrite LStream.firstn_repeat by exact Hb.
  assert (E : forall (l : list N), map (fun p => N.lxor (fst p) (snd p)) (combine (repeat 0%N (length l)) l) = l).
  { clear. induction l as [|x l IH]; [reflexivity|]. cbn [length repeat combine map fst snd]. now rewrite IH, N.lxor_0_l. }
  rewrite E. assert (L : length (skipn (length b) (repeat 0%N 25)) = 25 - length b) by (rewrite skipn_length, repeat_length; reflexivity).
  destruct (Nat.ltb_spec i 25) as [H|H].
  - rewrite (nth_indep _ 0%N (bswap64 0%N)) by (rewrite map_length, app_length, L; lia). rewrite map_nth. f_equal.
    destruct (le_lt_dec (length b) i) as [G|G].
    + rewrite app_nth2, (nth_overflow b) by exact G. rewrite nth_skipn_add. apply nth_repeat.
    + now apply app_nth1.
  - apply nth_overflow. rewrite map_length, app_length, L. lia.
Qed.

Lemma short_out_same perm :
  (forall st st', (forall i, i mod 5 < 2 -> nth i st 0%N = nth i st' 0%N) -> perm st = perm st') ->
  short_out perm d (octets_bits os) = short_out perm d (octets_bits os').
Proof.
  intros HP. unfold short_out.
  assert (E : keccak_process_block perm (repeat 0%N 25) (short_block d (octets_bits os)) =
              keccak_process_block perm (repeat 0%N 25) (short_block d (octets_bits os'))); [|rewrite E; reflexivity].
  unfold keccak_process_block, swapped_permute. apply (f_equal (map bswap64)). apply HP. intros i Hi.
  pose proof (sponge_side d Hd) as [HS _].
  rewrite !nth_xor_state by (rewrite short_block_words; [apply HS|]; rewrite <- ?HL; exact Hl). destruct (i <? 25); [|reflexivity]. f_equal. now apply short_block_same.
Qed.
End Collide.

Lemma avx512_collisions fuel rs vs d injb inj junk os os' :
  length vs = 8 -> Forall (fun l => length l = 8) vs ->
  sponge_size d -> injector_contract BOLB 64 (keccak_words d) injb ->
  injector_contract BOBB 64 (keccak_words d) inj -> block_ok 64 (keccak_words d) junk ->
  Forall (fits 8) os -> Forall (fits 8) os' -> length os = length os' -> 8 * length os < 1600 - 2 * d ->
  (forall p, p / 8 mod 5 < 2 -> nth p os 0%N = nth p os' 0%N) ->
  hash_once (keccak_1600 (avx512_result fuel rs vs) injb d) inj 8 junk os =
  hash_once (keccak_1600 (avx512_result fuel rs vs) injb d) inj 8 junk os'.
Proof.
  intros Hv Fv Hd HIb HI Hj Hf Hf' HL Hl Hs. rewrite <- (keccak_words_bits d Hd) in Hl.
  rewrite (short_once _ d Hd injb HIb inj junk os), (short_once _ d Hd injb HIb inj junk os') by (auto; now rewrite <- HL).
  apply (f_equal (@Some (list N))). apply short_out_same; auto.
  intros st st' E. unfold avx512_result. rewrite (LAsmAvx512.avx512_independent fuel rs vs st st') by auto. reflexivity.
Qed.

Lemma platform_example : forall st, block_ok 64 25 st ->
  platform_result st (match x86_permute 24 (repeat (CW (nth 0 st 0%N)) 16) (repeat (CP 1 2) 10) (repeat (CW 4) 25) st with
                      | Some r => r | None => [] end).
Proof.
  intros st Hst. eapply (On_x86_64 _ (repeat (CW (nth 0 st 0%N)) 16) (repeat (CP 1 2) 10) (repeat (CW 4) 25)); try reflexivity.
  rewrite LAsmX86.x86_permute_ok by auto. reflexivity.
Qed.

Lemma avx512_example :
  let os := map N.of_nat (seq 0 16 ++ [65]) in
  let os' := map N.of_nat (seq 0 16 ++ [66]) in
  os <> os' /\ length os = length os' /\ 8 * length os < 1600 - 2 * 256 /\
  (forall p, p / 8 mod 5 < 2 -> nth p os 0%N = nth p os' 0%N) /\
  avx512_permute 12 (repeat (CW 1) 24) (repeat (repeat (CW 0) 8) 8) (map N.of_nat (seq 1 25)) <> None.
Proof.
  cbv zeta. split; [discriminate|]. split; [reflexivity|]. split; [cbn; lia|]. split.
  - intros p Hp. do 16 (destruct p as [|p]; [reflexivity|]). destruct p as [|p]; [cbn in Hp; lia|]. destruct p; reflexivity.
  - vm_compute. discriminate.
Qed.
