(** * Property C07, continued: the digest after every history of word and block feeds

    C07 is false (C07_word_feeds_refuted, PMD.v).  Here is what the digest is after every history, with no condition on
    it: the digest of the bits that survive (SpecFeeds.v), with the number of all bits fed in the length field; for BLAKE2b
    the digest of all bits fed with the calls for the forgotten blocks left out (SpecFeedsBlake.v).
    Specification: SpecFeeds.v, SpecFeedsBlake.v, SpecMD.v, SpecSponge.v, SpecBlake2b.v.
    Model: MPack.v, MAcc.v, MConstr.v, MKeccak.v, MBlake2b.v. *)
From Coq Require Import NArith Arith List Bool.
From Verif Require Import SpecStream SpecMD SpecFeeds MPack MAcc MConstr SpecKeccak SpecSponge SpecSpongeBits MKeccak PMD.
From Verif Require Import SpecBlake2b SpecFeedsBlake MBlake2b.
From Verif Require LFeedsStmt LSpongeBits LFeedsBlake.
Import ListNotations.

(** The bits of a feed to a hash of [bw] words of [w] bits, in its order [e]; a count of 0 stands for an omitted one. *)
Definition bits_of (e : endian) (w bw : nat) (f : feed) : list bool :=
  match f with
  | FBlock v n => firstn (if n =? 0 then w * bw else n) (stream e w v)
  | FWord x n => firstn (if n =? 0 then w else n) (word_stream e w x)
  end.
Definition feed_fits (w bw : nat) (f : feed) : Prop :=
  match f with FBlock v n => block_ok w bw v /\ n <= w * bw | FWord x n => fits w x /\ n <= w end.

Theorem C07_every_history_md_partial :
  forall e w bw lb dw iv comp inj junk (fs : list feed),
  let C := md e w bw lb dw iv comp inj in
  let given := flat_map (bits_of e w bw) fs in
  md_params w bw lb -> injector_contract e w bw inj -> block_ok w bw junk ->
  Forall (feed_fits w bw) fs -> (N.of_nat (length given) < 2 ^ 64)%N ->
  exists a, acc_feeds C inj (acc_init C junk) fs = Some a /\
    acc_result C a = Some (md_hash_as e w bw lb (w * dw) one_marker iv comp
      (N.of_nat (length given)) (surviving w (w * bw) (bits_of e w bw) [] fs)).
Proof. intros e w bw lb dw iv comp inj junk fs. exact (LFeedsStmt.md_every e w bw lb dw iv comp inj junk fs). Qed.
Print Assumptions C07_every_history_md_partial.

(** Tiger, when its octet-sized marker fits in the last block; see C06_tiger_marker_overrun_refuted (PTiger.v) for the rest. *)
Theorem C07_every_history_tiger_partial :
  forall e w bw lb dw iv comp inj junk (fs : list feed),
  let C := md_tiger e w bw lb dw iv comp inj in
  let given := flat_map (bits_of e w bw) fs in
  md_params w bw lb -> injector_contract e w bw inj -> block_ok w bw junk ->
  Forall (feed_fits w bw) fs -> (N.of_nat (length given) < 2 ^ 64)%N -> length given mod (w * bw) + 8 <= w * bw ->
  exists a, acc_feeds C inj (acc_init C junk) fs = Some a /\
    acc_result C a = Some (md_hash_as e w bw lb (w * dw) tiger_marker iv comp
      (N.of_nat (length given)) (surviving w (w * bw) (bits_of e w bw) [] fs)).
Proof. intros e w bw lb dw iv comp inj junk fs. exact (LFeedsStmt.tiger_every e w bw lb dw iv comp inj junk fs). Qed.
Print Assumptions C07_every_history_tiger_partial.

(** SHA-3 and Keccak, whole octets (for others see C14): nothing tells that a block is missing, the digest is that of the
    octets that survive. *)
Theorem C07_every_history_sponge_partial :
  forall d injb inj junk C H (fs : list feed),
  let bw := keccak_words d in
  sponge_size d -> injector_contract BOLB 64 bw injb -> sponge_hash d injb C H ->
  injector_contract BOBB 64 bw inj -> block_ok 64 bw junk ->
  Forall (fun f => feed_fits 64 bw f /\ match f with FBlock _ n | FWord _ n => n mod 8 = 0 end) fs ->
  (N.of_nat (length (flat_map (bits_of BOBB 64 bw) fs)) < 2 ^ 64)%N ->
  exists a os, acc_feeds C inj (acc_init C junk) fs = Some a /\ Forall (fits 8) os /\
    octets_bits os = surviving 64 (64 * bw) (bits_of BOBB 64 bw) [] fs /\ acc_result C a = Some (H os).
Proof.
  intros d injb inj junk C H fs bw Hd HB HC HI Hj HF.
  apply (LFeedsStmt.sponge_every d injb inj junk C H fs Hd HB HC HI Hj).
  eapply Forall_impl; [|exact HF]. intros f. destruct f; cbn [feed_fits]; tauto.
Qed.
Print Assumptions C07_every_history_sponge_partial.

(** SHA-3 and Keccak, any numbers of bits: the surviving bits are taken as [taken_for] (SpecSpongeBits.v) says if suffix and padding fit
    in the last block; otherwise memory outside the block is accessed. *)
Theorem C07_every_history_sponge_bits_partial :
  forall d injb inj junk C suffix (fs : list feed),
  let bw := keccak_words d in
  let r := 1600 - 2 * d in
  sponge_size d -> injector_contract BOLB 64 bw injb -> suffixed_hash d injb C suffix ->
  injector_contract BOBB 64 bw inj -> block_ok 64 bw junk ->
  Forall (feed_fits 64 bw) fs -> (N.of_nat (length (flat_map (bits_of BOBB 64 bw) fs)) < 2 ^ 64)%N ->
  let M := surviving 64 (64 * bw) (bits_of BOBB 64 bw) [] fs in
  exists a, acc_feeds C inj (acc_init C junk) fs = Some a /\
    (length M mod r + length suffix + 2 <= r -> exists s, taken_for M s /\
       acc_result C a = Some (bits_octets_lsb (keccak_sponge r (s ++ suffix) d))) /\
    (r < length M mod r + length suffix + 2 -> acc_result C a = None).
Proof.
  intros d injb inj junk C suffix fs bw r Hd HB HC HI Hj HF.
  exact (LSpongeBits.any_history d Hd injb HB C suffix HC inj HI junk fs Hj HF).
Qed.
Print Assumptions C07_every_history_sponge_bits_partial.

(** BLAKE2b: the calls for the forgotten blocks are left out; those blocks still count in all later ones. *)
Theorem C07_every_history_blake2b_partial :
  forall db ic inj junk (fs : list feed),
  let C := blake2b ic db in
  let bits := bits_of LOBB 64 16 in
  db mod 8 = 0 /\ 0 < db <= 512 -> injector_contract LOBB 64 16 ic -> injector_contract LOBB 64 16 inj -> block_ok 64 16 junk ->
  Forall (feed_fits 64 16) fs -> (N.of_nat (length (flat_map bits fs)) < 2 ^ 64)%N ->
  exists a, acc_feeds C inj (acc_init C junk) fs = Some a /\ total a = N.of_nat (length (flat_map bits fs)) /\
    acc_result C a = Some (BLAKE2b_without (forgotten 64 (64 * 16) bits 0 fs) (db / 8) (flat_map bits fs)).
Proof. intros db ic inj junk fs. exact (LFeedsBlake.b_every db ic inj junk fs). Qed.
Print Assumptions C07_every_history_blake2b_partial.

(** If nothing is forgotten that is the digest of C06_bit_exact_block_feeds_blake2b and C21_blake2b_all_lengths_partial (PBlake2b.v). *)
Theorem C07_nothing_forgotten_blake2b :
  forall db M, db mod 8 = 0 /\ 0 < db <= 512 -> (N.of_nat (length M) < 2 ^ 64)%N ->
  BLAKE2b_without [] (db / 8) M = BLAKE2b_bits_observed (db / 8) M.
Proof. exact LFeedsBlake.without_nothing. Qed.
Print Assumptions C07_nothing_forgotten_blake2b.

(** A block, then sixteen words that complete another one, which is forgotten once a last word follows. *)
Definition forgetful_b : list feed := FBlock (map N.of_nat (seq 1 16)) 0 :: map (fun i => FWord (N.of_nat i) 0) (seq 1 16) ++ [FWord 0x12345678%N 8].
Example C07_every_history_blake2b_hypotheses :
  Forall (feed_fits 64 16) forgetful_b /\ length (flat_map (bits_of LOBB 64 16) forgetful_b) = 2056 /\
  forgotten 64 (64 * 16) (bits_of LOBB 64 16) 0 forgetful_b = [1] /\
  forgotten 64 (64 * 16) (bits_of LOBB 64 16) 0 (removelast forgetful_b) = [].
Proof. exact LFeedsBlake.forgetful_blake. Qed.

(** A history that meets the hypotheses: four octets given as part of a block, 15 words that complete the block, of which nothing
    survives once a last word follows. *)
Definition forgetful : list feed := FBlock (repeat 0x61626364%N 16) 32 :: map (fun i => FWord (N.of_nat i) 0) (seq 1 15) ++ [FWord 0x12345678%N 8].
Example C07_every_history_hypotheses :
  Forall (feed_fits 32 16) forgetful /\ length (flat_map (bits_of BOBB 32 16) forgetful) = 520 /\
  surviving 32 (32 * 16) (bits_of BOBB 32 16) [] forgetful = [false; false; false; true; false; false; true; false] /\
  surviving 32 (32 * 16) (bits_of BOBB 32 16) [] (removelast forgetful) = flat_map (bits_of BOBB 32 16) (removelast forgetful).
Proof. exact LFeedsStmt.forgetful_example. Qed.

(** C08 is false when the bit count is omitted (C08_bits_count_refuted, PMD.v).  After every history the hash has counted
    all bits fed, and the counter it depends on those of the feeds that state their number of bits. *)
Theorem C08_every_history_partial :
  forall e w bw lb dw iv comp inj junk (fs : list feed),
  let C := md e w bw lb dw iv comp inj in
  let given := flat_map (bits_of e w bw) in
  let stated := filter (fun f => match f with FBlock _ n | FWord _ n => negb (n =? 0) end) fs in
  md_params w bw lb -> injector_contract e w bw inj -> block_ok w bw junk ->
  Forall (feed_fits w bw) fs -> (N.of_nat (length (given fs)) < 2 ^ 64)%N ->
  exists a, acc_feeds C inj (acc_init C junk) fs = Some a /\
    total a = N.of_nat (length (given fs)) /\ bits_count fs = N.of_nat (length (given stated)).
Proof. intros e w bw lb dw iv comp inj junk fs. exact (LFeedsStmt.md_bits_count_every e w bw lb dw iv comp inj junk fs). Qed.
Print Assumptions C08_every_history_partial.
