(** Entry points and digest shapes for the three constructions, in the form of PMisc.v. *)
From Coq Require Import NArith Arith List Bool Lia ZifyBool ZifyNat ZifyN ZArith.
From Verif Require Import SpecStream LStream MPack LInj MAcc LAcc LBsp MConstr SpecMD LMD LMDProps SpecHist LHist
  LMDStmt SpecOctets LGen MMisc MHash SpecHash LHash.
From Verif Require Import SpecKeccak MKeccak SpecSponge LKeccakF LKeccakP LKeccakBij LSponge LSpongeStmt.
From Verif Require Import SpecWords LWords SpecBlake2b MBlake2b LBlake2b LBlake2bStmt.
Import ListNotations.
Ltac Zify.zify_post_hook ::= Z.div_mod_to_equations.

Lemma read_range_length m first n : length (read_range m first n) = n.
Proof. unfold read_range. now rewrite map_length, seq_length. Qed.

Lemma read_range_Forall (P : N -> Prop) m first n : (forall i, i < n -> P (m (first + i))) -> Forall P (read_range m first n).
Proof.
  intros H. unfold read_range. apply Forall_map. apply Forall_forall. intros i Hi. apply in_seq in Hi. apply H. lia.
Qed.

Lemma value_bits_ok (digits : nat) (sg : bool) : value_bits digits sg = if sg then S digits else digits.
Proof. unfold value_bits. destruct sg; lia. Qed.

Lemma entry_md e w bw lb dw iv comp inj digits (sg : bool) m first n :
  md_params w bw lb -> injector_contract e w bw inj ->
  let vb := if sg then S digits else digits in
  vb mod 8 = 0 -> 0 < vb -> w mod vb = 0 ->
  (forall i, i < n -> fits vb (m (first + i))) -> (N.of_nat (vb * n) < 2 ^ 64)%N ->
  every_entry_point (md_construction e w bw lb dw iv comp (merkle_damgard_padding inj e w bw)) inj digits sg
    (block_ok w bw) m first n
    (md_hash e w bw lb (w * dw) one_marker iv comp (stream host_order vb (read_range m first n))).
Proof.
  intros MP HI vb H8 H0 Hw HF Hs. apply every_entry. rewrite value_bits_ok. fold vb. intros junk Hj.
  apply (md_once e w bw lb dw iv comp inj junk vb); auto.
  - now apply read_range_Forall.
  - now rewrite stream_length, read_range_length.
Qed.

Lemma entry_sponge d injb inj C H digits (sg : bool) m first n :
  sponge_size d -> injector_contract BOLB 64 (keccak_words d) injb -> sponge_hash d injb C H ->
  injector_contract BOBB 64 (keccak_words d) inj ->
  let vb := if sg then S digits else digits in
  vb mod 8 = 0 -> 0 < vb -> 64 mod vb = 0 ->
  (forall i, i < n -> fits vb (m (first + i))) -> (N.of_nat (vb * n) < 2 ^ 64)%N ->
  every_entry_point C inj digits sg (block_ok 64 (keccak_words d)) m first n
    (H (range_octets host_order vb (read_range m first n))).
Proof.
  intros Hd Hb HC HI vb H8 H0 Hw HF Hs. apply every_entry. rewrite value_bits_ok. fold vb. intros junk Hj.
  apply (both_once d Hd injb Hb C H HC inj HI); auto.
  - now apply read_range_Forall.
  - rewrite range_octets_length, read_range_length. fold vb.
    replace (8 * (vb / 8 * n)) with (vb * n); [exact Hs|].
    rewrite Nat.mul_assoc. f_equal. lia.
Qed.

Lemma entry_blake db ic inj digits (sg : bool) m first n :
  db mod 8 = 0 /\ 0 < db <= 512 -> injector_contract LOBB 64 16 ic -> injector_contract LOBB 64 16 inj ->
  let vb := if sg then S digits else digits in
  In vb [8; 16; 32; 64] ->
  (forall i, i < n -> fits vb (m (first + i))) -> (N.of_nat (vb * n) < 2 ^ 64)%N ->
  every_entry_point (blake2b ic db) inj digits sg (block_ok 64 16) m first n
    (BLAKE2b_observed (db / 8) (range_octets host_order vb (read_range m first n))).
Proof.
  intros Hd Hc HI vb Hv HF Hs. apply every_entry. rewrite value_bits_ok. fold vb. intros junk Hj.
  apply (b_wide db ic inj junk); auto.
  - now apply read_range_Forall.
  - rewrite range_octets_length, read_range_length. fold vb.
    replace (8 * (vb / 8 * n)) with (vb * n); [exact Hs|].
    assert (vb mod 8 = 0) by (cbn in Hv; destruct Hv as [<-|[<-|[<-|[<-|[]]]]]; reflexivity).
    rewrite Nat.mul_assoc. f_equal. lia.
Qed.

(** ** Digest shapes *)
Lemma shape_md e w bw lb dw iv comp inj junk ops sw :
  let C := md_construction e w bw lb dw iv comp (merkle_damgard_padding inj e w bw) in
  md_params w bw lb -> injector_contract e w bw inj -> block_ok w bw junk ->
  (forall s b, length s = sw -> length (comp s b) = sw) -> length iv = sw -> dw <= sw ->
  Forall (fun o => match o with
                   | OpHash vb xs => vb mod 8 = 0 /\ 0 < vb /\ w mod vb = 0 /\ Forall (fits vb) xs
                   | OpExtract => True end) ops ->
  (N.of_nat (length (flat_map (fun o => match o with OpHash vb xs => stream host_order vb xs
                                                   | OpExtract => [] end) ops)) < 2 ^ 64)%N ->
  exists ds, run_ops C inj (acc_init C junk) ops = Some ds /\
    Forall (fun d => length d = w * dw / 8 /\ Forall (fun o => (o < 256)%N) d) ds.
Proof.
  intros C MP HI Hj Hc Hi Hd HF Hs. eexists. split; [apply (md_history e w bw lb dw iv comp inj junk ops); auto|].
  apply expected_Forall. intros M. apply (md_hash_shape e w bw lb dw one_marker iv comp M sw); auto. apply MP.
Qed.

Lemma keccak_f_len S : length S = 1600 -> length (keccak_f S) = 1600.
Proof. apply Rnds_length. Qed.

Lemma sponge_absorb_length r P : 0 < r <= 1600 -> length (sponge_absorb r P) = 1600.
Proof.
  intros Hr. unfold sponge_absorb.
  assert (G : forall bs s, Forall (fun b => length b = r) bs -> length s = 1600 ->
              length (fold_left (absorb_block r) bs s) = 1600).
  { intros bs s HF. revert s. induction HF as [|b bs Hb HF IH]; intros s Hs; [exact Hs|].
    cbn [fold_left]. apply IH. unfold absorb_block. apply keccak_f_len.
    rewrite xor_bits_length; [exact Hs|]. rewrite app_length, repeat_length. lia. }
  apply G; [apply chunks_Forall; lia|]. apply repeat_length.
Qed.

Lemma squeeze_length r n : forall S, r <= 1600 -> length S = 1600 -> length (sponge_squeeze r n S) = r * n.
Proof.
  induction n as [|n IH]; intros S Hr HS; [cbn; lia|].
  change (sponge_squeeze r (Datatypes.S n) S) with (firstn r S ++ sponge_squeeze r n (keccak_f S)).
  rewrite app_length, firstn_length, IH by (auto using keccak_f_len). rewrite HS. lia.
Qed.

Lemma keccak_sponge_length r M d : 0 < r <= 1600 -> length (keccak_sponge r M d) = d.
Proof.
  intros Hr. unfold keccak_sponge. rewrite firstn_length, squeeze_length by (try lia; now apply sponge_absorb_length).
  pose proof (Nat.div_mod d r ltac:(lia)). pose proof (Nat.mod_upper_bound d r ltac:(lia)). nia.
Qed.

Lemma shape_sponge d injb inj junk C H ops :
  sponge_size d -> injector_contract BOLB 64 (keccak_words d) injb -> sponge_hash d injb C H ->
  injector_contract BOBB 64 (keccak_words d) inj -> block_ok 64 (keccak_words d) junk ->
  Forall (fun o => match o with
                   | OpHash vb xs => vb mod 8 = 0 /\ 0 < vb /\ 64 mod vb = 0 /\ Forall (fits vb) xs
                   | OpExtract => True end) ops ->
  (N.of_nat (8 * length (history_octets host_order ops)) < 2 ^ 64)%N ->
  exists ds, run_ops C inj (acc_init C junk) ops = Some ds /\
    Forall (fun x => length x = d / 8 /\ Forall (fun o => (o < 256)%N) x) ds.
Proof.
  intros Hd Hb HC HI Hj HF Hs. eexists. split; [apply (both_history d Hd injb Hb C H HC inj HI ops junk); auto|].
  apply expected_octets_Forall. intros M. destruct Hd as [D1 D2].
  assert (L : forall N, length (keccak_sponge (1600 - 2 * d) N d) = 8 * (d / 8)).
  { intros N. rewrite keccak_sponge_length by lia. lia. }
  destruct HC; unfold SHA3_octets, Keccak_octets, SHA3, Keccak, bits_octets_lsb;
    apply words8_shape, L.
Qed.

Lemma F_length h m t f : length (F h m t f) = 8.
Proof. unfold F. now rewrite map_length, seq_length. Qed.

Lemma le_octets_len n ws : length (le_octets n ws) = n * length ws.
Proof.
  unfold le_octets. induction ws as [|x ws IH]; cbn [flat_map length]; [lia|]. rewrite app_length, IH, octets_le_length. lia.
Qed.

Lemma process_length d : forall h i ll, length h = 8 -> length (process h i ll d) = 8.
Proof.
  induction d as [|m d IH]; intros h i ll Hh; [exact Hh|].
  destruct d as [|m' d]; [apply F_length|].
  change (process h i ll (m :: m' :: d)) with (process (F h m (N.of_nat ((i + 1) * 128)) false) (i + 1) ll (m' :: d)).
  apply IH. apply F_length.
Qed.

Lemma blake_shape_h nn h : length h = 8 -> nn <= 64 -> digest_shape nn (firstn nn (le_octets 8 h)).
Proof.
  intros Hh Hn. split; [rewrite firstn_length, le_octets_len; lia|].
  apply Forall_firstn'. exact (le_octets_fits 8 h).
Qed.

Lemma blake_shape nn os : nn <= 64 -> digest_shape nn (BLAKE2b_observed nn os).
Proof.
  intros Hn. unfold BLAKE2b_observed, BLAKE2b. cbv zeta.
  destruct ((length os mod 128 =? 0) && negb (length os =? 0)).
  - apply blake_shape_h; [apply F_length|exact Hn].
  - apply blake_shape_h; [apply process_length; reflexivity|exact Hn].
Qed.

Lemma shape_blake db ic inj junk ops :
  db mod 8 = 0 /\ 0 < db <= 512 -> injector_contract LOBB 64 16 ic ->
  injector_contract LOBB 64 16 inj -> block_ok 64 16 junk ->
  Forall (fun o => match o with
                   | OpHash vb xs => vb mod 8 = 0 /\ 0 < vb /\ 64 mod vb = 0 /\ Forall (fits vb) xs
                   | OpExtract => True end) ops ->
  (N.of_nat (8 * length (history_octets host_order ops)) < 2 ^ 64)%N ->
  exists ds, run_ops (blake2b ic db) inj (acc_init (blake2b ic db) junk) ops = Some ds /\
    Forall (fun x => length x = db / 8 /\ Forall (fun o => (o < 256)%N) x) ds.
Proof.
  intros Hd Hc HI Hj HF Hs. eexists. split; [apply (b_history db ic inj junk); auto|].
  apply expected_octets_Forall. intros M. apply blake_shape. lia.
Qed.

Lemma entry_example : (if true then S 7 else 7) = 8 /\
  (forall i, i < 3 -> fits 8 ((fun q => N.of_nat (97 + q)) (100 + i))).
Proof.
  split; [reflexivity|].
  intros i Hi. unfold fits. change (2 ^ N.of_nat 8)%N with 256%N. lia.
Qed.
