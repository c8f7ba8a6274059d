(** SHA-3 and Keccak objects in every program: proofs. *)
From Coq Require Import NArith Arith List Bool Lia ZifyBool ZifyNat ZifyN ZArith.
From Verif Require Import LAnyUse.
From Verif Require Import SpecStream LStream SpecWords LWords SpecMD SpecMDOctets LMDOctets MPack LInj MAcc LAcc MConstr LMD LMDStmt LGen SpecStore SpecKeccak MKeccak
  SpecSponge LKeccakF LKeccakP LKeccakBij LSponge LSpongeStmt LSpongeCol SpecObject SpecAnyUse MObject MSpongeObjects SpecSpongeUse.
Import ListNotations.
Ltac Zify.zify_post_hook ::= Z.div_mod_to_equations.
#[local] Opaque keccak_f.

Lemma block_octets_bits b : octets_bits_lsb (block_octets b) = stream BOLB 64 b.
Proof.
  unfold block_octets. rewrite <- lsb_octets by apply to_octets_fits. rewrite (to_octets_stream true 8).
  change (8 * 8) with 64. symmetry. apply stream_BOLB; [reflexivity|lia].
Qed.
Lemma octets_bits_lsb_firstn n os : octets_bits_lsb (firstn n os) = firstn (8 * n) (octets_bits_lsb os).
Proof. symmetry. apply stream_firstn. Qed.

Lemma fold_cons {A B} (f : A -> B -> A) x l s : fold_left f (x :: l) s = fold_left f l (f s x).
Proof. reflexivity. Qed.

Section Sponge.
Context (perm : list N -> list N) (HP : perm_correct perm).
Context (bw d : nat) (sfx : list bool).
Context (padding : list N -> nat -> option (list N * bool)) (plast : list N -> nat -> option (list N)).
Notation bb := (64 * bw).
Context (Hbw : 0 < bw <= 25) (Hd0 : 0 < d) (Hd8 : d mod 8 = 0) (Hd : d + 64 <= 1600) (Hdw : d / bb * bw + bw <= 25).
Context (Hsfx : length sfx + 2 <= 8).
Context (Hpad : forall b seen, block_ok 64 bw b -> seen + (length sfx + 2) <= bb ->
  exists b3, padding b seen = Some (b3, true) /\ block_ok 64 bw b3 /\
    stream BOLB 64 b3 = firstn seen (stream BOLB 64 b) ++ sfx ++ [true] ++
                        repeat false (bb - 2 - (seen + length sfx)) ++ [true]).
Notation o := (sponge_object BOBB 64 bw (d / 8) (repeat 0%N 25) (keccak_process_block perm)
                 padding plast (keccak_finalizer perm bw d)).
Context (Hr : bb = 1600 - 2 * d).

Lemma squeeze_fits n : forall s, block_ok 64 25 s -> Forall (fits 64) (fst (squeeze_blocks perm bw n s)).
Proof.
  induction n as [|n IH]; intros s Hs; cbn [squeeze_blocks]; [constructor|].
  specialize (IH (swapped_permute perm s) (swapped_permute_ok perm HP s Hs)).
  destruct (squeeze_blocks perm bw n (swapped_permute perm s)) as [ws s']. cbn [fst] in *.
  apply Forall_app. split; [|exact IH]. apply Forall_firstn'. apply Hs.
Qed.
Lemma words_up m k : 0 < k -> (m mod (64 * k)) / 64 + (if (m mod (64 * k)) mod 64 =? 0 then 0 else 1) + m / (64 * k) * k = (m + 63) / 64.
Proof.
  intros Hk. pose proof (Nat.div_mod m (64 * k) ltac:(lia)) as D. set (q := m / (64 * k)) in *. set (x := m mod (64 * k)) in *.
  clearbody q x. rewrite D. replace (64 * k * q + x + 63) with (x + 63 + (q * k) * 64) by lia. rewrite Nat.div_add by lia.
  destruct (Nat.eqb_spec (x mod 64) 0); lia.
Qed.

(** The state the finaliser leaves. *)
Lemma finalizer_state s : block_ok 64 25 s ->
  block_ok 64 25 (keccak_finalizer perm bw d s) /\ stream BOLB 64 (keccak_finalizer perm bw d s) = left_over d (stream BOLB 64 s).
Proof.
  intros Hs. destruct (finalizer_string perm HP bw d sfx padding plast Hbw Hd8 Hd Hdw Hsfx Hpad s Hs) as [LF _].
  unfold left_over. rewrite <- Hr. unfold keccak_finalizer in LF |- *.
  pose proof (squeeze_blocks_string perm HP bw d sfx padding plast Hbw Hd8 Hd Hdw Hsfx Hpad (d / bb) s Hs) as Q.
  pose proof (squeeze_fits (d / bb) s Hs) as FW.
  pose proof (words_up d bw (proj1 Hbw)) as KW.
  set (nb := d / bb) in *. destruct (squeeze_blocks perm bw nb s) as [ws s'] eqn:E. destruct Q as (I1 & I2 & I3). cbn [fst] in FW.
  set (lw := (d mod bb) / 64 + (if (d mod bb) mod 64 =? 0 then 0 else 1)) in *.
  assert (Hlw : lw <= bw).
  { assert (d mod bb < bb) by (apply Nat.mod_upper_bound; lia). unfold lw. clear - H Hbw. revert H. generalize (d mod bb).
    intros m Hm. destruct (m mod 64 =? 0) eqn:Em; lia. }
  assert (Lf : length (firstn lw s') = lw) by (rewrite firstn_length; destruct I1; lia).
  split.
  - split; [exact LF|]. apply Forall_app. split; [apply Forall_app; split; [exact FW|apply Forall_firstn', I1]|].
    apply Forall_forall. intros x Hx. apply repeat_spec in Hx. subst. reflexivity.
  - rewrite <- KW. replace (1 + nb) with (nb + 1) by lia. rewrite I3. cbn [sponge_squeeze]. rewrite app_nil_r.
    rewrite !stream_app, stream_zeros, app_length, Lf, I2.
    assert (Lw : length (stream BOLB 64 ws) = nb * bb) by (rewrite stream_length, I2; lia).
    replace (64 * (lw + nb * bw)) with (length (stream BOLB 64 ws) + 64 * lw) by lia.
    rewrite firstn_app_2, firstn_firstn, Nat.min_l by lia. rewrite stream_firstn. f_equal. f_equal. lia.
Qed.

Definition ok (S : list bool) (s : list N) : Prop := block_ok 64 25 s /\ stream BOLB 64 s = S.

Lemma process_ok S s b : ok S s -> block_ok 64 bw b ->
  ok (absorb_block (1600 - 2 * d) S (octets_bits_lsb (block_octets b))) (keccak_process_block perm s b).
Proof.
  intros [K1 K2] Hb. destruct (process_block_string perm HP bw s b ltac:(lia) K1 Hb) as [P1 P2]. split; [exact P1|].
  rewrite P2, K2, block_octets_bits, Hr. reflexivity.
Qed.

(** Ending with [n] bits of a block, less than a block. *)
Lemma padded_block b n b3 : block_ok 64 bw b -> block_ok 64 bw b3 -> n + (length sfx + 2) <= bb ->
  stream BOLB 64 b3 = firstn n (stream BOLB 64 b) ++ sfx ++ [true] ++ repeat false (bb - 2 - (n + length sfx)) ++ [true] ->
  padded_bits d sfx (firstn n (stream BOLB 64 b)) = stream BOLB 64 b3.
Proof.
  intros Hb Hb3 Hn E. rewrite E. unfold padded_bits, pad10star1. rewrite <- Hr. rewrite <- app_assoc. do 5 f_equal.
  rewrite app_length, firstn_length, (block_stream_length BOLB 64 bw) by auto. rewrite Nat.min_l by lia.
  destruct (Nat.eq_dec (n + length sfx + 2) bb) as [Z|Z].
  - rewrite Z, (Nat.mod_same bb) by lia. rewrite Nat.sub_0_r, (Nat.mod_same bb) by lia. lia.
  - rewrite (Nat.mod_small (n + length sfx + 2)) by lia. rewrite Nat.mod_small by lia. lia.
Qed.
Lemma finish_ok S s b n : ok S s -> block_ok 64 bw b -> n + (length sfx + 2) <= bb ->
  exists s4, ok (left_over d (absorbed_from d S (padded_bits d sfx (firstn n (stream BOLB 64 b))))) s4 /\
  match padding b n with
  | None => None
  | Some (b1, is_last) =>
      let s2 := keccak_process_block perm s b1 in
      match (if is_last then Some s2
             else match plast (repeat 0%N bw) n with
                  | None => None
                  | Some b2 => Some (keccak_process_block perm s2 b2)
                  end) with
      | None => None
      | Some s3 => let s4 := keccak_finalizer perm bw d s3 in Some (s4, firstn (d / 8) (pack_from BOBB 64 8 s4))
      end
  end = Some (s4, digest_of d (absorbed_from d S (padded_bits d sfx (firstn n (stream BOLB 64 b))))).
Proof.
  intros [Hs Es] Hb HT. destruct (Hpad b n Hb HT) as (b1 & E1 & Hb1 & S1). rewrite E1. cbv zeta iota.
  destruct (process_block_string perm HP bw s b1) as [K1 K2]; auto; try lia.
  set (s2 := keccak_process_block perm s b1) in *.
  assert (EA : absorbed_from d S (padded_bits d sfx (firstn n (stream BOLB 64 b))) = stream BOLB 64 s2).
  { rewrite (padded_block b n b1) by assumption. unfold absorbed_from. rewrite <- Hr.
    rewrite chunks_single by (try lia; now apply (block_stream_length BOLB 64 bw)). rewrite fold_cons, K2, Es. reflexivity. }
  rewrite EA. destruct (finalizer_state s2 K1) as [F1 F2]. exists (keccak_finalizer perm bw d s2). split; [now split|].
  destruct (finalizer_string perm HP bw d sfx padding plast Hbw Hd8 Hd Hdw Hsfx Hpad s2 K1) as [Lf F].
  assert (H8 : length (stream BOBB 64 (keccak_finalizer perm bw d s2)) = 1600) by (rewrite stream_length; lia).
  f_equal. f_equal. unfold pack_from, pack, digest_of, squeezed. rewrite <- Hr.
  rewrite words_of_stream_firstn by (try lia; rewrite H8; lia).
  replace (8 * (d / 8)) with d by lia.
  change (words_of_stream BOBB 8 (firstn d (stream BOBB 64 (keccak_finalizer perm bw d s2))))
    with (bits_octets (firstn d (stream BOBB 64 (keccak_finalizer perm bw d s2)))).
  rewrite <- bits_octets_lsb_lsb by (rewrite firstn_length, H8, Nat.min_l by lia; exact Hd8).
  rewrite lsb_firstn by (auto; rewrite H8; (reflexivity || lia)).
  rewrite <- stream_BOLB by (auto; lia). rewrite F. reflexivity.
Qed.
Lemma padded_full S b : block_ok 64 bw b ->
  absorbed_from d S (padded_bits d sfx (stream BOLB 64 b)) =
  absorbed_from d (absorb_block (1600 - 2 * d) S (stream BOLB 64 b)) (padded_bits d sfx []).
Proof.
  intros Hb. pose proof (block_stream_length BOLB 64 bw b Hb) as Lb. unfold absorbed_from, padded_bits. rewrite <- Hr.
  replace (pad10star1 bb (length (stream BOLB 64 b ++ sfx))) with (pad10star1 bb (length ([] ++ sfx))).
  2:{ unfold pad10star1. do 4 f_equal. rewrite !app_length, Lb. cbn [length].
      replace (bb + length sfx + 2) with (0 + length sfx + 2 + 1 * bb) by lia. rewrite Nat.mod_add by lia. reflexivity. }
  rewrite <- app_assoc. rewrite (chunks_cons bb) by (auto; lia). rewrite fold_cons. reflexivity.
Qed.

Lemma taken_bits total : (total mod 8 = 0)%N ->
  N.to_nat (total mod N.of_nat bb) = 8 * N.to_nat ((total / 8) mod N.of_nat ((1600 - 2 * d) / 8)) /\
  N.to_nat ((total / 8) mod N.of_nat ((1600 - 2 * d) / 8)) < 8 * bw.
Proof.
  intros H8. rewrite <- Hr. replace (bb / 8) with (8 * bw) by (clear; lia).
  pose proof (mod_octets total 8 bw ltac:(lia) (proj1 Hbw) H8) as E. change (8 * 8) with 64 in E. rewrite E.
  split; [apply Nnat.N2Nat.inj_mul|]. apply mod_below. clear - Hbw. lia.
Qed.
Lemma digest_ok S s b total : ok S s -> block_ok 64 bw b -> (total mod 8 = 0)%N ->
  let S' := absorbed_from d S (padded_bits d sfx (octets_bits_lsb (firstn (octets_taken d total) (block_octets b)))) in
  exists s4, ok (left_over d S') s4 /\ ob_digest o s b total = Some (s4, digest_of d S').
Proof.
  intros K Hb H8 S'. destruct (taken_bits total H8) as [E1 E2]. unfold S'. clear S'. rewrite octets_bits_lsb_firstn, block_octets_bits.
  cbn [ob_digest sponge_object]. cbv zeta. rewrite E1. unfold octets_taken.
  set (q := N.to_nat ((total / 8) mod N.of_nat ((1600 - 2 * d) / 8))) in *.
  destruct (N.eqb_spec total 0) as [->|NZ].
  - assert (q = 0) as Q0. { unfold q. rewrite N.mod_0_l; [reflexivity|]. rewrite <- Hr. clear - Hbw. lia. }
    rewrite Q0. cbn [negb andb Nat.mul]. refine (finish_ok S s b 0 K Hb _). clear - Hbw Hsfx. lia.
  - cbv zeta. clearbody q. destruct (Nat.eqb_spec q 0) as [->|NQ].
    + cbn [negb andb Nat.mul Nat.eqb]. replace (8 * ((1600 - 2 * d) / 8)) with bb by (rewrite <- Hr; clear; lia).
      rewrite firstn_all2 by (rewrite (block_stream_length BOLB 64 bw) by auto; lia). rewrite padded_full by exact Hb.
      pose proof (process_ok S s b K Hb) as K'. rewrite block_octets_bits in K'.
      refine (finish_ok _ _ b 0 K' Hb _). clear - Hbw Hsfx. lia.
    + replace (8 * q =? 0) with false by (symmetry; apply Nat.eqb_neq; lia). rewrite andb_false_r. 
      refine (finish_ok S s b (8 * q) K Hb _). clear - Hbw Hsfx E2. lia.
Qed.

Definition stands_for (P : nat -> option (list bool)) (S : nat -> option (list N)) : Prop :=
  forall i, match P i, S i with Some p, Some s => ok p s | None, None => True | _, _ => False end.
Lemma put_stands_for P S i p s : stands_for P S -> ok p s -> stands_for (put i p P) (put i s S).
Proof. intros M K j. unfold put. destruct (j =? i); [exact K|apply M]. Qed.

Lemma any_sponge_program cs : Forall (octet_arguments 64 bw) cs ->
  forall P S, stands_for P S -> object_calls o (fun s => s) S cs = sponge_returns d sfx P cs.
Proof.
  assert (NEW : ok (repeat false 1600) (repeat 0%N 25)) by (split; [apply block_ok_zeros|apply stream_zeros]).
  induction cs as [|c cs IH]; intros HA P S M; [reflexivity|]. inversion HA as [|? ? [A1 A2] A3]; subst. specialize (IH A3).
  destruct c as [i|i b seen|i b total|i|i j|i j]; cbn [object_calls sponge_returns].
  - apply IH, put_stands_for; [exact M|exact NEW].
  - pose proof (M i) as Mi. destruct (P i) as [p|], (S i) as [s|]; try contradiction; [|reflexivity].
    destruct A1 as (Lb & Fb & _). apply IH, put_stands_for; [exact M|]. apply process_ok; [exact Mi|now split].
  - pose proof (M i) as Mi. destruct (P i) as [p|], (S i) as [s|]; try contradiction; [|reflexivity].
    destruct A1 as (Lb & Fb & _). destruct (digest_ok p s b total Mi (conj Lb Fb) A2) as (s4 & K & ->).
    refine (f_equal (option_map _) (IH _ _ _)). apply put_stands_for; [exact M|exact K].
  - pose proof (M i) as Mi. destruct (P i) as [p|], (S i) as [s|]; try contradiction; [|reflexivity]. apply IH, put_stands_for; [exact M|exact NEW].
  - pose proof (M i) as Mi. pose proof (M j) as Mj. destruct (P i) as [p|], (S i) as [s|]; try contradiction; [|reflexivity].
    destruct (P j) as [p'|], (S j) as [s'|]; try contradiction; [|reflexivity]. apply IH, put_stands_for; [exact M|exact Mi].
  - pose proof (M i) as Mi. destruct (P i) as [p|], (S i) as [s|]; try contradiction; [|reflexivity]. apply IH, put_stands_for; [exact M|exact Mi].
Qed.
End Sponge.

Theorem every_sponge_program d injb obj sfx cs : sponge_size d -> sponge_object_of d injb obj sfx ->
  injector_contract BOLB 64 (keccak_words d) injb -> Forall (octet_arguments 64 (keccak_words d)) cs ->
  object_calls obj (fun s => s) nothing cs = sponge_returns d sfx nothing cs.
Proof.
  intros Hd HO HI HA. destruct (sponge_side d Hd) as (H1 & H2 & H3 & H4). pose proof (keccak_words_bits d Hd) as Hr.
  destruct HO as [|perm Hp].
  - apply (any_sponge_program permute permute_correct (keccak_words d) d [false; true]); auto; try (cbn [length]; lia).
    + apply Hd.
    + intros b seen Hb Hs. cbn [length] in Hs |- *. apply sha3_padding_spec; auto; lia.
    + intros i. exact I.
  - apply (any_sponge_program perm Hp (keccak_words d) d []); auto; try (cbn [length]; lia).
    + apply Hd.
    + intros b seen Hb Hs. cbn [length] in Hs |- *. apply keccak_padding_spec; auto; lia.
    + intros i. exact I.
Qed.
