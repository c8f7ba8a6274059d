(** Collisions of sponge digests: proofs. *)
From Coq Require Import NArith Arith List Bool Lia ZifyBool ZifyNat ZifyN ZArith.
From Verif Require Import SpecStream SpecOctets SpecKeccak MPack MAcc MConstr MKeccak SpecSponge.
From Verif Require Import LStream LKeccakP LKeccakBij LSponge LSpongeStmt.
Import ListNotations.
Ltac Zify.zify_post_hook ::= Z.div_mod_to_equations.

Lemma keccak_f_length S : length S = 1600 -> length (keccak_f S) = 1600.
Proof. apply Rnds_length. Qed.
Lemma keccak_f_inj S T : length S = 1600 -> length T = 1600 -> keccak_f S = keccak_f T -> S = T.
Proof. intros LS LT E. destruct keccak_f_bij as (g & _ & Hg). rewrite <- (proj1 (Hg S LS)), <- (proj1 (Hg T LT)). now rewrite E. Qed.
Local Opaque keccak_f.
Lemma squeeze_length r n : forall S, r <= 1600 -> length S = 1600 -> length (sponge_squeeze r n S) = n * r.
Proof.
  induction n as [|n IH]; intros S Hr HS; [reflexivity|]. cbn [sponge_squeeze]. rewrite app_length, firstn_length, IH by auto using keccak_f_length. lia.
Qed.
Lemma squeezed_length r d S : 0 < r <= 1600 -> length S = 1600 -> length (squeezed r d S) = d.
Proof.
  intros Hr HS. unfold squeezed. rewrite firstn_length, squeeze_length by lia. apply Nat.min_l.
  pose proof (Nat.div_mod d r ltac:(lia)). pose proof (Nat.mod_upper_bound d r ltac:(lia)). nia.
Qed.
Lemma bits_octets_lsb_inj s t : length s mod 8 = 0 -> length t mod 8 = 0 -> bits_octets_lsb s = bits_octets_lsb t -> s = t.
Proof.
  intros Hs Ht E. rewrite <- (stream_words_of_stream LOLB 8 s), <- (stream_words_of_stream LOLB 8 t) by (auto; lia).
  unfold bits_octets_lsb in E. now rewrite E.
Qed.
Section R.
Context (r : nat) (Hr : 0 < r <= 1600).
Lemma absorb_block_length S P : length S = 1600 -> length P = r -> length (absorb_block r S P) = 1600.
Proof. intros HS HP. unfold absorb_block. apply keccak_f_length. rewrite xor_bits_length; auto. rewrite app_length, repeat_length. lia. Qed.
Lemma state_length bs : Forall (fun b => length b = r) bs -> length (state_after r bs) = 1600.
Proof.
  unfold state_after. intros F. assert (L0 : length (repeat false 1600) = 1600) by apply repeat_length. revert L0. generalize (repeat false 1600).
  induction F as [|b bs Hb F IH]; intros S L0; cbn [fold_left]; [exact L0|]. apply IH. now apply absorb_block_length.
Qed.
Lemma xor_bits_inj a b c : length a = length b -> length a = length c -> xor_bits a b = xor_bits a c -> b = c.
Proof.
  revert b c. induction a as [|x a IH]; intros [|y b] [|z c] L1 L2 E; try discriminate; [reflexivity|]. cbn in E, L1, L2.
  injection E as E1 E2. f_equal; [destruct x, y, z; auto; discriminate|apply IH; auto; lia].
Qed.
(** Equal states after absorbing: equal capacity parts before, and equal blocks if the states before are equal. *)
Lemma absorb_equal S T P Q : length S = 1600 -> length T = 1600 -> length P = r -> length Q = r ->
  absorb_block r S P = absorb_block r T Q -> skipn r S = skipn r T /\ (S = T -> P = Q).
Proof.
  intros HS HT HP HQ E. unfold absorb_block in E. apply keccak_f_inj in E; [|rewrite xor_bits_length; rewrite ?app_length, ?repeat_length; lia..]. split.
  - rewrite <- (firstn_skipn r S), <- (firstn_skipn r T) in E. rewrite !xor_bits_app in E by (rewrite firstn_length; lia).
    apply (f_equal (skipn r)) in E. rewrite !skipn_app in E.
    rewrite !xor_bits_length in E by (rewrite firstn_length; lia). rewrite !firstn_length, !Nat.min_l, Nat.sub_diag in E by lia.
    rewrite (skipn_all2 (xor_bits (firstn r S) P)) in E by (rewrite xor_bits_length; rewrite firstn_length; lia).
    rewrite (skipn_all2 (xor_bits (firstn r T) Q)) in E by (rewrite xor_bits_length; rewrite firstn_length; lia). cbn [app skipn] in E.
    rewrite !xor_bits_zero in E by (rewrite skipn_length; lia). exact E.
  - intros <-. apply xor_bits_inj in E; try (rewrite app_length, repeat_length; lia). apply (f_equal (firstn r)) in E.
    rewrite !firstn_app, HP, HQ, Nat.sub_diag in E. cbn [firstn] in E. rewrite !app_nil_r, !firstn_all2 in E by lia. exact E.
Qed.
Lemma state_snoc bs b : state_after r (bs ++ [b]) = absorb_block r (state_after r bs) b.
Proof. unfold state_after. now rewrite fold_left_app. Qed.
Lemma inner B B' : B <> [] -> B' <> [] -> Forall (fun b => length b = r) B -> Forall (fun b => length b = r) B' ->
  B <> B' -> state_after r B = state_after r B' ->
  removelast B <> removelast B' /\ capacity_part r (state_after r (removelast B)) = capacity_part r (state_after r (removelast B')).
Proof.
  intros N N' F F' Ne E. destruct (exists_last N) as (b & x & ->). destruct (exists_last N') as (b' & x' & ->). rewrite !removelast_last.
  apply Forall_app in F. apply Forall_app in F'. destruct F as [F Fx], F' as [F' Fx']. apply Forall_inv in Fx. apply Forall_inv in Fx'.
  rewrite !state_snoc in E. apply absorb_equal in E; auto using state_length. destruct E as [E1 E2]. split; [|exact E1].
  intros X. apply Ne. rewrite X in E2 |- *. now rewrite E2.
Qed.
Lemma padded_mod M : length (M ++ pad10star1 r (length M)) mod r = 0.
Proof.
  rewrite app_length. unfold pad10star1. rewrite !app_length, repeat_length. cbn [length].
  replace (length M + (1 + ((r - (length M + 2) mod r) mod r + 1))) with (length M + 2 + (r - (length M + 2) mod r) mod r) by lia.
  set (n := length M + 2). pose proof (Nat.div_mod n r ltac:(lia)) as D. pose proof (Nat.mod_upper_bound n r ltac:(lia)).
  destruct (Nat.eq_dec (n mod r) 0) as [Z|Z].
  - rewrite Z, Nat.sub_0_r, Nat.mod_same, Nat.add_0_r by lia. exact Z.
  - rewrite (Nat.mod_small (r - n mod r)) by lia. replace (n + (r - n mod r)) with ((n / r + 1) * r) by nia. apply Nat.mod_mul. lia.
Qed.
Lemma blocks_ok os sfx : Forall (fun b => length b = r) (padded_blocks r os sfx) /\ padded_blocks r os sfx <> [].
Proof.
  unfold padded_blocks. set (M := _ ++ _). split; [apply chunks_Forall; lia|]. intros E. apply (f_equal (@concat _)) in E.
  rewrite chunks_concat in E by (try apply padded_mod; lia). apply app_eq_nil in E. destruct E as [_ E]. discriminate E.
Qed.
Lemma blocks_inj os os' sfx sfx' : Forall (fits 8) os -> Forall (fits 8) os' -> length sfx < 8 -> length sfx' < 8 ->
  padded_blocks r os sfx = padded_blocks r os' sfx' -> os = os' /\ sfx = sfx'.
Proof.
  intros F F' L L' E. unfold padded_blocks in E. apply (f_equal (@concat _)) in E. rewrite !chunks_concat in E by (try apply padded_mod; lia).
  apply pad10star1_inj in E. pose proof (f_equal (@length _) E) as Y. rewrite !app_length in Y.
  assert (LO : forall o, length (octets_bits_lsb o) = 8 * length o) by (intros o; apply stream_length). rewrite !LO in Y.
  assert (X : firstn (8 * length os) (octets_bits_lsb os ++ sfx) = firstn (8 * length os) (octets_bits_lsb os' ++ sfx')) by now rewrite E.
  assert (X2 : skipn (8 * length os) (octets_bits_lsb os ++ sfx) = skipn (8 * length os) (octets_bits_lsb os' ++ sfx')) by now rewrite E.
  assert (LL : length os = length os') by lia. rewrite LL in X, X2.
  rewrite !firstn_app, !LO, LL, !Nat.sub_diag in X. cbn [firstn] in X. rewrite !app_nil_r, !firstn_all2 in X by (rewrite LO; lia).
  rewrite !skipn_app, !LO, LL, !Nat.sub_diag in X2. cbn [skipn] in X2. rewrite !skipn_all2 in X2 by (rewrite LO; lia). cbn [app] in X2.
  split; [now apply octets_bits_lsb_inj|exact X2].
Qed.
Lemma core d os sfx os' sfx' : d mod 8 = 0 -> Forall (fits 8) os -> Forall (fits 8) os' -> length sfx < 8 -> length sfx' < 8 ->
  (os, sfx) <> (os', sfx') ->
  bits_octets_lsb (squeezed r d (state_after r (padded_blocks r os sfx))) = bits_octets_lsb (squeezed r d (state_after r (padded_blocks r os' sfx'))) ->
  let B := padded_blocks r os sfx in
  let B' := padded_blocks r os' sfx' in
  state_after r B <> state_after r B' /\ squeezed r d (state_after r B) = squeezed r d (state_after r B') \/
  removelast B <> removelast B' /\
    capacity_part r (state_after r (removelast B)) = capacity_part r (state_after r (removelast B')).
Proof.
  intros D F F' L L' Ne E B B'. destruct (blocks_ok os sfx) as [FB NB]. destruct (blocks_ok os' sfx') as [FB' NB'].
  fold B in FB, NB, E. fold B' in FB', NB', E. pose proof (state_length B FB) as SL. pose proof (state_length B' FB') as SL'.
  apply bits_octets_lsb_inj in E.
  2: { rewrite squeezed_length; [exact D|exact Hr|exact SL]. }
  2: { rewrite squeezed_length; [exact D|exact Hr|exact SL']. }
  destruct (list_eq_dec bool_dec (state_after r B) (state_after r B')) as [Es|Es].
  - right. apply (inner B B' NB NB' FB FB'); [|exact Es]. intros Eb. apply (blocks_inj os os' sfx sfx' F F' L L') in Eb. destruct Eb as [-> ->]. now apply Ne.
  - left. exact (conj Es E).
Qed.
End R.

Lemma some_inj {A} (a b : A) : Some a = Some b -> a = b.
Proof. now injection 1. Qed.
Section Stmt.
Context (d : nat) (Hd : sponge_size d).
Notation r := (1600 - 2 * d).
Lemma once injb inj junk C sfx os : suffixed_hash d injb C sfx -> injector_contract BOLB 64 (keccak_words d) injb ->
  injector_contract BOBB 64 (keccak_words d) inj -> block_ok 64 (keccak_words d) junk ->
  Forall (fits 8) os -> (N.of_nat (8 * length os) < 2 ^ 64)%N ->
  hash_once C inj 8 junk os = Some (bits_octets_lsb (squeezed r d (state_after r (padded_blocks r os sfx)))).
Proof.
  intros HC HB HI HJ F L. destruct HC as [|perm HP].
  - rewrite (both_once_octets d Hd injb HB (sha3 injb d) (SHA3_octets d) (SH_sha3 d injb) inj) by auto.
    unfold SHA3_octets, SHA3, keccak_sponge, squeezed, state_after, sponge_absorb, padded_blocks. reflexivity.
  - rewrite (both_once_octets d Hd injb HB (keccak_1600 perm injb d) (Keccak_octets d) (SH_keccak d injb perm HP) inj) by auto.
    unfold Keccak_octets, Keccak, keccak_sponge, squeezed, state_after, sponge_absorb, padded_blocks. rewrite app_nil_r. reflexivity.
Qed.
Local Opaque state_after padded_blocks squeezed bits_octets_lsb.
Lemma suffix_short injb C sfx : suffixed_hash d injb C sfx -> length sfx < 8.
Proof. destruct 1; cbn [length]; lia. Qed.
Theorem collision injb inj junk C sfx os injb' inj' junk' C' sfx' os' x :
  suffixed_hash d injb C sfx -> injector_contract BOLB 64 (keccak_words d) injb ->
  injector_contract BOBB 64 (keccak_words d) inj -> block_ok 64 (keccak_words d) junk ->
  Forall (fits 8) os -> (N.of_nat (8 * length os) < 2 ^ 64)%N ->
  suffixed_hash d injb' C' sfx' -> injector_contract BOLB 64 (keccak_words d) injb' ->
  injector_contract BOBB 64 (keccak_words d) inj' -> block_ok 64 (keccak_words d) junk' ->
  Forall (fits 8) os' -> (N.of_nat (8 * length os') < 2 ^ 64)%N ->
  (os, sfx) <> (os', sfx') -> hash_once C inj 8 junk os = Some x -> hash_once C' inj' 8 junk' os' = Some x ->
  let B := padded_blocks r os sfx in
  let B' := padded_blocks r os' sfx' in
  state_after r B <> state_after r B' /\ squeezed r d (state_after r B) = squeezed r d (state_after r B') \/
  removelast B <> removelast B' /\
    capacity_part r (state_after r (removelast B)) = capacity_part r (state_after r (removelast B')).
Proof.
  intros HC HB HI HJ F L HC' HB' HI' HJ' F' L' Ne E E' B B'.
  rewrite (once injb inj junk C sfx os) in E by auto. rewrite (once injb' inj' junk' C' sfx' os') in E' by auto.
  rewrite <- E' in E. apply some_inj in E. assert (Hr : 0 < 1600 - 2 * d <= 1600) by (clear - Hd; destruct Hd; lia).
  assert (D : d mod 8 = 0) by (clear - Hd; destruct Hd; lia).
  exact (core _ Hr d os sfx os' sfx' D F F' (suffix_short _ _ _ HC) (suffix_short _ _ _ HC') Ne E).
Qed.
End Stmt.

(** Colliding pairs exist for the 32-bit digest. *)
Lemma pairs :
  let injb := inj_keep BOLB 64 24 in
  let inj := inj_keep BOBB 64 24 in
  let junk := repeat 0%N 24 in
  sponge_size 32 /\ injector_contract BOLB 64 (keccak_words 32) injb /\ injector_contract BOBB 64 (keccak_words 32) inj /\
  block_ok 64 (keccak_words 32) junk /\
  hash_once (sha3 injb 32) inj 8 junk [0xfe; 0x8b; 0x04]%N = Some [0x45; 0x54; 0x57; 0x06]%N /\
  hash_once (keccak_1600 permute injb 32) inj 8 junk [0x0a; 0x55; 0x02]%N = Some [0x45; 0x54; 0x57; 0x06]%N /\
  hash_once (keccak_1600 permute injb 32) inj 8 junk [0xb8; 0x8e; 0x00]%N = Some [0x0f; 0x50; 0x4b; 0x14]%N /\
  hash_once (keccak_1600 permute injb 32) inj 8 junk [0x0c; 0x0f; 0x02]%N = Some [0x0f; 0x50; 0x4b; 0x14]%N.
Proof.
  change (keccak_words 32) with 24.
  split; [split; [reflexivity|lia]|]. split; [apply LInj.inj_keep_contract; (reflexivity || lia)|].
  split; [apply LInj.inj_keep_contract; (reflexivity || lia)|]. split; [split; [reflexivity|]; repeat constructor; unfold fits; reflexivity|].
  repeat split; vm_compute; reflexivity.
Qed.
