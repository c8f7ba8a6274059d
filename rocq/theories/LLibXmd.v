(** Proofs about the library's hashes by name, continued: digest sizes, and expand_message_xmd over each of them. *)
From Coq Require Import NArith Arith List Bool Lia ZifyBool ZifyNat ZifyN ZArith.
From Verif Require Import SpecStream SpecWords SpecMD SpecMDOctets SpecOctets SpecOctetHash SpecXmd MPack MAcc MXmd SpecXmdHist SpecLibrary.
From Verif Require SpecSha SpecRipemd SpecTiger SpecTigerTables SpecBlake2b SpecKeccak SpecSponge LSha LMDOctets LBlake2bCol LSuites LTiger LXmdStmt LLibrary
  MTiger.
Import ListNotations.
Ltac Zify.zify_post_hook ::= Z.div_mod_to_equations.

Lemma md_octets_digest big n bw lo mk iv comp out k : 0 < n -> 0 < bw -> 0 < out <= n * k -> out <= 1000 ->
  length iv = k -> (forall s x, length s = k -> length (comp s x) = k) ->
  digest_octets (md_octets big n bw lo mk iv comp out) out.
Proof.
  intros Hn Hb Ho Hs Hi Hc. split; [lia|]. split; [lia|]. intros os. unfold md_octets.
  assert (L := LSha.fold_length comp k Hc (map (to_words big n) (chunks (n * bw) (padded big n bw lo mk os))) iv Hi).
  revert L. generalize (fold_left comp (map (to_words big n) (chunks (n * bw) (padded big n bw lo mk os))) iv). intros ws L. split.
  - rewrite firstn_length, (LMDOctets.to_octets_length big n bw Hn Hb), L. lia.
  - apply LSuites.forall_firstn, LMDOctets.to_octets_fits.
Qed.
Lemma feed_length w k (steps : list N -> list N -> list N) : (forall key text, length text = k -> length (steps key text) = k) ->
  forall s x, length s = k -> length (SpecSha.feed_forward w s (steps x s)) = k.
Proof. intros H s x L. unfold SpecSha.feed_forward. rewrite map_length, combine_length, H, L by exact L. lia. Qed.

Theorem md4_size : digest_octets SpecSha.MD4 16.
Proof. apply (md_octets_digest _ _ _ _ _ _ _ _ 4); try lia; [reflexivity|]. apply feed_length, LSha.md4_steps_length. Qed.
Theorem md5_size : digest_octets SpecSha.MD5 16.
Proof. apply (md_octets_digest _ _ _ _ _ _ _ _ 4); try lia; [reflexivity|]. apply feed_length, LSha.md5_steps_length. Qed.
Theorem sha0_size : digest_octets SpecSha.SHA0 20.
Proof. apply (md_octets_digest _ _ _ _ _ _ _ _ 5); try lia; [reflexivity|]. apply feed_length, LSha.sha1_steps_length. Qed.
Theorem sha1_size : digest_octets SpecSha.SHA1 20.
Proof. apply (md_octets_digest _ _ _ _ _ _ _ _ 5); try lia; [reflexivity|]. apply feed_length, LSha.sha1_steps_length. Qed.
Theorem sha224_size : digest_octets SpecSha.SHA224 28.
Proof. apply (md_octets_digest _ _ _ _ _ _ _ _ 8); try lia; [reflexivity|]. apply feed_length. intros. now apply LSha.sha2_steps_length. Qed.
Theorem sha256_size : digest_octets SpecSha.SHA256 32.
Proof. apply (md_octets_digest _ _ _ _ _ _ _ _ 8); try lia; [reflexivity|]. apply feed_length. intros. now apply LSha.sha2_steps_length. Qed.
Theorem sha384_size : digest_octets SpecSha.SHA384 48.
Proof. apply (md_octets_digest _ _ _ _ _ _ _ _ 8); try lia; [reflexivity|]. apply feed_length. intros. now apply LSha.sha2_steps_length. Qed.
Theorem sha512_size : digest_octets SpecSha.SHA512 64.
Proof. apply (md_octets_digest _ _ _ _ _ _ _ _ 8); try lia; [reflexivity|]. apply feed_length. intros. now apply LSha.sha2_steps_length. Qed.

Ltac tuples := repeat match goal with |- context [match ?p with pair _ _ => _ end] => destruct p end.
Theorem ripemd128_size : digest_octets SpecRipemd.RIPEMD128 16.
Proof.
  apply (md_octets_digest _ _ _ _ _ _ _ _ 4); try (cbn; lia); try reflexivity. intros s x L.
  do 4 (destruct s as [|? s]; [discriminate L|]). destruct s; [|discriminate L].
  unfold SpecRipemd.RIPEMD128_compress. tuples. reflexivity.
Qed.
Theorem ripemd160_size : digest_octets SpecRipemd.RIPEMD160 20.
Proof.
  apply (md_octets_digest _ _ _ _ _ _ _ _ 5); try (cbn; lia); try reflexivity. intros s x L.
  do 5 (destruct s as [|? s]; [discriminate L|]). destruct s; [|discriminate L].
  unfold SpecRipemd.RIPEMD160_compress. tuples. reflexivity.
Qed.
Theorem ripemd256_size : digest_octets SpecRipemd.RIPEMD256 32.
Proof.
  apply (md_octets_digest _ _ _ _ _ _ _ _ 8); try (cbn; lia); try reflexivity. intros s x L.
  do 8 (destruct s as [|? s]; [discriminate L|]). destruct s; [|discriminate L].
  unfold SpecRipemd.RIPEMD256_compress. tuples. reflexivity.
Qed.
Theorem ripemd320_size : digest_octets SpecRipemd.RIPEMD320 40.
Proof.
  apply (md_octets_digest _ _ _ _ _ _ _ _ 10); try (cbn; lia); try reflexivity. intros s x L.
  do 10 (destruct s as [|? s]; [discriminate L|]). destruct s; [|discriminate L].
  unfold SpecRipemd.RIPEMD320_compress. tuples. reflexivity.
Qed.
Theorem tiger_size n : digest_octets (SpecTiger.TIGER n) 24.
Proof.
  apply (md_octets_digest _ _ _ _ _ _ _ _ 3); try (cbn; lia); try reflexivity. intros s x L.
  do 3 (destruct s as [|? s]; [discriminate L|]). destruct s; [|discriminate L].
  unfold SpecTiger.compress. generalize (SpecTiger.passes SpecTigerTables.tables n x (n0, n1, n2)). intros [[? ?] ?]. reflexivity.
Qed.
Lemma F_length h m t f : length (SpecBlake2b.F h m t f) = 8.
Proof. unfold SpecBlake2b.F. cbv zeta. now rewrite map_length, seq_length. Qed.
Lemma process_length ll d : forall h i, length h = 8 -> length (SpecBlake2b.process h i ll d) = 8.
Proof.
  induction d as [|m [|m' d] IH]; intros h i Hh; [exact Hh|apply F_length|].
  change (length (SpecBlake2b.process (SpecBlake2b.F h m (N.of_nat ((i + 1) * 128)) false) (i + 1) ll (m' :: d)) = 8).
  apply IH, F_length.
Qed.
Lemma le_octets_fits ws : Forall (fits 8) (le_octets 8 ws).
Proof. exact (LMDOctets.to_octets_fits false 8 ws). Qed.
Theorem blake2b_size nn : 0 < nn <= 64 -> digest_octets (SpecBlake2b.BLAKE2b_observed nn) nn.
Proof.
  intros Hn. split; [lia|]. split; [lia|]. intros os.
  assert (L : forall ws, length ws = 8 -> length (firstn nn (le_octets 8 ws)) = nn /\ Forall (fits 8) (firstn nn (le_octets 8 ws))).
  { intros ws Hw. split; [rewrite firstn_length, LBlake2bCol.le_octets_length; lia|apply LSuites.forall_firstn, le_octets_fits]. }
  unfold SpecBlake2b.BLAKE2b_observed, SpecBlake2b.BLAKE2b. cbv zeta.
  destruct ((length os mod 128 =? 0) && negb (length os =? 0)); apply L; [apply F_length|apply process_length; reflexivity].
Qed.
Theorem sha3_size d : In d [224; 256; 384; 512] -> digest_octets (SpecKeccak.SHA3_octets d) (d / 8).
Proof. intros Hd. exact (LXmdStmt.sponge_digest_octets d (inj_keep BOLB 64 1) _ _ (LLibrary.sizes d Hd) (SpecSponge.SH_sha3 d _)). Qed.
Theorem keccak_size d : In d [224; 256; 384; 512] -> digest_octets (SpecKeccak.Keccak_octets d) (d / 8).
Proof.
  intros Hd. exact (LXmdStmt.sponge_digest_octets d (inj_keep BOLB 64 1) _ _ (LLibrary.sizes d Hd)
    (SpecSponge.SH_keccak d _ MKeccak.permute (fun _ _ => eq_refl))).
Qed.

Theorem library_digest inj C H : library_hash inj C H -> digest_octets H (length (H [])).
Proof.
  assert (A : forall b, digest_octets H b -> digest_octets H (length (H []))).
  { intros b D. destruct D as (D1 & D2 & D3). rewrite (proj1 (D3 [])). exact (conj D1 (conj D2 D3)). }
  intros HL. revert A. destruct HL as [ c HC HI | c HC HI | c HC HI | c HC HI | c HC HI | c HC HI | c HC HI | c HC HI | HI | HI | HI | HI
         | p C' Hp E HI | d injb Hd HB HI | d injb perm Hd HB HP HI | bits injb Hb HB HI ]; intros A.
  - exact (A _ md4_size).
  - exact (A _ md5_size).
  - exact (A _ sha0_size).
  - exact (A _ sha1_size).
  - exact (A _ sha224_size).
  - exact (A _ sha256_size).
  - exact (A _ sha384_size).
  - exact (A _ sha512_size).
  - exact (A _ ripemd128_size).
  - exact (A _ ripemd160_size).
  - exact (A _ ripemd256_size).
  - exact (A _ ripemd320_size).
  - exact (A _ (tiger_size p)).
  - exact (A _ (sha3_size d Hd)).
  - exact (A _ (keccak_size d Hd)).
  - apply (A (bits / 8)). apply blake2b_size. lia.
Qed.
Theorem library_block inj C H : library_hash inj C H -> input_block_octets C (block_bits C / 8).
Proof.
  intros HL. unfold input_block_octets, block_bits. destruct (LLibrary.library_words _ _ _ HL) as [[-> | ->] _]; lia.
Qed.
Theorem library_xmd inj C H k len dst junk : library_hash inj C H ->
  let b := length (H []) in let r := block_bits C / 8 in
  Forall (fits 8) dst -> 16 <= length dst <= 255 -> block_ok (c_word C) (c_words C) junk -> accepted b k len = true ->
  forall pieces junks buf, len mod b = 0 -> 0 < len -> Forall (piece_ok C) pieces ->
  (forall i, block_ok (c_word C) (c_words C) (junks i)) -> length buf = len ->
  (N.of_nat (8 * length (msg_prime r (pieces_octets host_order pieces) dst len)) < 2 ^ 64)%N ->
  exists a, xmd_init C inj junk = Some a /\
    xmd_run C inj b len dst a (updates pieces ++ [XExtract junks buf]) =
    Some [expand_message_xmd H b r (pieces_octets host_order pieces) dst len].
Proof.
  intros HL b r. destruct (LLibrary.library_words _ _ _ HL) as [_ HH]. rewrite <- HH.
  exact (LXmdStmt.once C inj H r b k len dst junk (LLibrary.library_octet_hash _ _ _ HL) (library_digest _ _ _ HL) (library_block _ _ _ HL)).
Qed.
Theorem library_h2f inj C H k p m L count dst junk : library_hash inj C H ->
  let b := length (H []) in let r := block_bits C / 8 in
  Forall (fits 8) dst -> 16 <= length dst <= 255 -> block_ok (c_word C) (c_words C) junk -> accepted b k (count * m * L) = true ->
  forall pieces junks buf, (count * m * L) mod b = 0 -> 0 < count * m * L -> Forall (piece_ok C) pieces ->
  (forall i, block_ok (c_word C) (c_words C) (junks i)) -> length buf = count * m * L ->
  (N.of_nat (8 * length (msg_prime r (pieces_octets host_order pieces) dst (count * m * L))) < 2 ^ 64)%N ->
  exists a, xmd_init C inj junk = Some a /\
    h2f_run C inj b p m L count dst a (updates pieces ++ [XExtract junks buf]) =
    Some [hash_to_field H b r p m L count (pieces_octets host_order pieces) dst].
Proof.
  intros HL b r. destruct (LLibrary.library_words _ _ _ HL) as [_ HH]. rewrite <- HH.
  exact (LXmdStmt.h2f_once C inj H r b k p m L count dst junk (LLibrary.library_octet_hash _ _ _ HL) (library_digest _ _ _ HL) (library_block _ _ _ HL)).
Qed.
