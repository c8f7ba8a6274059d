(** * Properties C11, C48 and C50 (Tiger), and C02-C06 for Tiger

    Specification: SpecBij.v, SpecTiger.v, SpecTigerTables.v (the S-boxes, from the published generator),
    SpecMDOctets.v, SpecOctets.v.  Model: MTiger.v, MConstr.v, MAcc.v, MPack.v. *)
From Coq Require Import NArith Arith List Bool.
From Verif Require Import SpecStream SpecOctets MPack MAcc MConstr SpecBij SpecTiger.
From Verif Require SpecMD MTiger LTigerStmt LTiger LTigerBits.
Import ListNotations.
Local Open Scope N_scope.

(** C11: the compression function is the published one, for three or more passes. *)
Theorem C11_tiger_compression : forall p state block,
  length state = 3%nat -> Forall (fits 64) state -> length block = 8%nat -> Forall (fits 64) block ->
  MTiger.tiger_process_block (3 + p) state block = SpecTiger.compress SpecTigerTables.tables (3 + p) state block.
Proof. exact LTigerStmt.tiger_process. Qed.
Print Assumptions C11_tiger_compression.

(** C11: the digests are the published ones, for every octet string shorter than 2^61 octets. *)
Theorem C11_tiger_digest : forall p inj junk os,
  injector_contract LOBB 64 8 inj -> block_ok 64 8 junk ->
  Forall (fits 8) os -> N.of_nat (8 * length os) < 2 ^ 64 ->
  exists C, MTiger.tiger 192 (3 + p) inj = Some C /\ hash_once C inj 8 junk os = Some (TIGER (3 + p) os).
Proof.
  intros p inj junk os HI HJ HF HS. destruct (LTiger.tiger_once 0 p inj junk os HI HJ HF HS) as (C & E1 & E2).
  exists C. rewrite app_nil_r in E2. exact (conj E1 E2).
Qed.
Print Assumptions C11_tiger_digest.

Example C11_hypotheses :
  injector_contract LOBB 64 8 (inj_run LOBB 64 8) /\ block_ok 64 8 (map N.of_nat (seq 3 8)).
Proof. exact LTigerStmt.tiger_hyp. Qed.

(** The model run on "abc". *)
Example C11_model_abc :
  match MTiger.tiger 192 3 (inj_run LOBB 64 8) with
  | Some C => option_map SpecWords.be_value (hash_once C (inj_run LOBB 64 8) 8 (map N.of_nat (seq 3 8)) [97; 98; 99])
  | None => None
  end = Some 0x2aab1484e8c158f2bfb8c5ff41b57a525129131c957b5f93.
Proof. vm_compute. reflexivity. Qed.

(** C48 is false: no digest shorter than 192 bits can be instantiated. *)
Theorem C48_truncated_tiger_refuted : forall n p inj, (n < 192)%nat -> MTiger.tiger n p inj = None.
Proof. exact LTigerStmt.tiger_small. Qed.
Print Assumptions C48_truncated_tiger_refuted.

(** C48, the other widths: a digest of 64 (3 + k) bits is the 192-bit one and 8 k zero octets.
    Missing: the truncated widths, which do not exist (above). *)
Theorem C48_longer_tiger_partial : forall k p inj junk os,
  injector_contract LOBB 64 8 inj -> block_ok 64 8 junk ->
  Forall (fits 8) os -> N.of_nat (8 * length os) < 2 ^ 64 ->
  exists C, MTiger.tiger (64 * (3 + k)) (3 + p) inj = Some C /\
    hash_once C inj 8 junk os = Some (TIGER (3 + p) os ++ repeat 0 (8 * k)).
Proof. exact LTiger.tiger_once. Qed.
Print Assumptions C48_longer_tiger_partial.
(** 256 bits: the 192-bit digest of "abc" and eight zero octets. *)
Example C48_run :
  match MTiger.tiger 256 3 (inj_run LOBB 64 8) with
  | Some C => option_map SpecWords.be_value (hash_once C (inj_run LOBB 64 8) 8 (map N.of_nat (seq 3 8)) [97; 98; 99])
  | None => None
  end = Some (0x2aab1484e8c158f2bfb8c5ff41b57a525129131c957b5f93 * 2 ^ 64).
Proof. vm_compute. reflexivity. Qed.

(** C50 (Tiger): for a fixed block, the passes before the feed-forward permute the 2^192 values of
    the three words, and the key schedule permutes blocks. *)
Theorem C50_tiger_passes : forall passes block,
  length block = 8%nat -> Forall (fits 64) block -> bijective_on words3 (MTiger.keyed passes block).
Proof. exact LTigerStmt.keyed_bijective. Qed.
Print Assumptions C50_tiger_passes.

Theorem C50_tiger_key_schedule :
  bijective_on (fun block => length block = 8%nat /\ Forall (fits 64) block) MTiger.mix.
Proof. exact LTigerStmt.mix_bijective. Qed.
Print Assumptions C50_tiger_key_schedule.

Example C50_tiger_hypotheses : words3 (1, 2, 3) /\
  MTiger.keyed 3 (map N.of_nat (seq 3 8)) (1, 2, 3) <> (1, 2, 3).
Proof. split; [repeat split|]. vm_compute. discriminate. Qed.

(** C02, C03 for Tiger: any pieces, each with its own element width. *)
Theorem C02_C03_pieces_tiger : forall k p inj junk C,
  MTiger.tiger (64 * (3 + k)) (3 + p) inj = Some C -> injector_contract LOBB 64 8 inj -> block_ok 64 8 junk ->
  forall ps,
  Forall (fun p => fst p mod 8 = 0 /\ 0 < fst p /\ 64 mod fst p = 0 /\ Forall (fits (fst p)) (snd p))%nat ps ->
  N.of_nat (8 * length (pieces_octets host_order ps)) < 2 ^ 64 ->
  exists a, hash_pieces C inj (acc_init C junk) ps = Some a /\
    acc_result C a = Some (TIGER (3 + p) (pieces_octets host_order ps) ++ repeat 0 (8 * k)).
Proof. exact LTigerStmt.tiger_pieces. Qed.
Print Assumptions C02_C03_pieces_tiger.

(** C02 for Tiger: pieces against one call. *)
Theorem C02_pieces_equal_one_call_tiger : forall k p inj junk C,
  MTiger.tiger (64 * (3 + k)) (3 + p) inj = Some C -> injector_contract LOBB 64 8 inj -> block_ok 64 8 junk ->
  forall (pieces : list (list N)), Forall (Forall (fits 8)) pieces ->
  N.of_nat (8 * length (concat pieces)) < 2 ^ 64 ->
  exists a x, hash_pieces C inj (acc_init C junk) (map (fun p => (8%nat, p)) pieces) = Some a /\
    acc_result C a = Some x /\ hash_once C inj 8 junk (concat pieces) = Some x.
Proof. exact LTigerStmt.tiger_pieces_once. Qed.
Print Assumptions C02_pieces_equal_one_call_tiger.

(** C03 for Tiger: a range of wide integers hashes as its octets, least significant first. *)
Theorem C03_wide_elements_tiger : forall k p inj junk C,
  MTiger.tiger (64 * (3 + k)) (3 + p) inj = Some C -> injector_contract LOBB 64 8 inj -> block_ok 64 8 junk ->
  forall vb xs, In vb [8; 16; 32; 64]%nat -> Forall (fits vb) xs ->
  N.of_nat (8 * length (range_octets host_order vb xs)) < 2 ^ 64 ->
  hash_once C inj vb junk xs = Some (TIGER (3 + p) (range_octets host_order vb xs) ++ repeat 0 (8 * k)).
Proof. exact LTigerStmt.tiger_wide. Qed.
Print Assumptions C03_wide_elements_tiger.

(** C04 for Tiger. *)
Theorem C04_extraction_repeatable_tiger : forall k p inj junk C,
  MTiger.tiger (64 * (3 + k)) (3 + p) inj = Some C -> injector_contract LOBB 64 8 inj -> block_ok 64 8 junk ->
  forall ops,
  Forall (fun o => match o with
                   | OpHash vb xs => (vb mod 8 = 0 /\ 0 < vb /\ 64 mod vb = 0)%nat /\ Forall (fits vb) xs
                   | OpExtract => True end) ops ->
  N.of_nat (8 * length (history_octets host_order ops)) < 2 ^ 64 ->
  run_ops C inj (acc_init C junk) ops =
  Some (expected_octets host_order (fun os => TIGER (3 + p) os ++ repeat 0 (8 * k)) [] ops).
Proof.
  intros k p inj junk C HC HI HJ ops HF. apply LTigerStmt.tiger_history; [exact HC|exact HI|exact HJ|].
  revert HF. apply Forall_impl. intros [vb xs|]; tauto.
Qed.
Print Assumptions C04_extraction_repeatable_tiger.

(** C05, C06 for Tiger, in whole octets: the digest depends on the stated octets of the blocks only.
    Missing: bit counts that are not multiples of 8, for which Tiger defines no padding. *)
Theorem C05_C06_octet_feeds_tiger_partial : forall k p inj junk C,
  MTiger.tiger (64 * (3 + k)) (3 + p) inj = Some C -> injector_contract LOBB 64 8 inj -> block_ok 64 8 junk ->
  forall (fs : list (list N * nat)),
  Forall (fun f => block_ok 64 8 (fst f) /\ (0 < snd f <= 64)%nat) fs ->
  N.of_nat (8 * length (blocks_octets LOBB 64 fs)) < 2 ^ 64 ->
  exists a, acc_feeds C inj (acc_init C junk) (map (fun f => FBlock (fst f) (8 * snd f)) fs) = Some a /\
    total a = N.of_nat (8 * length (blocks_octets LOBB 64 fs)) /\
    acc_result C a = Some (TIGER (3 + p) (blocks_octets LOBB 64 fs) ++ repeat 0 (8 * k)).
Proof. exact LTigerStmt.tiger_feeds. Qed.
Print Assumptions C05_C06_octet_feeds_tiger_partial.

(** C05, C06 for Tiger, bit by bit: any history of block feeds, of any bit counts, gives the
    Merkle-Damgard hash of exactly the stated bits, with the octet 0x01 as the marker, whatever the
    memory held, as long as the marker's eight bits fit in the last block.
    Missing: bit lengths that are 505 to 511 modulo 512, see below. *)
Theorem C06_bit_feeds_tiger_partial : forall k p inj junk C,
  MTiger.tiger (64 * (3 + k)) (3 + p) inj = Some C -> injector_contract LOBB 64 8 inj -> block_ok 64 8 junk ->
  forall (fs : list (list N * nat)),
  Forall (fun f => block_ok 64 8 (fst f) /\ (0 < snd f <= 512)%nat) fs ->
  let M := flat_map (fun f => firstn (snd f) (stream LOBB 64 (fst f))) fs in
  N.of_nat (length M) < 2 ^ 64 -> (length M mod 512 <= 504)%nat ->
  exists a, acc_feeds C inj (acc_init C junk) (map (fun f => FBlock (fst f) (snd f)) fs) = Some a /\
    total a = N.of_nat (length M) /\
    acc_result C a = Some (SpecMD.md_hash LOBB 64 8 64 192 SpecMD.tiger_marker H0
                             (SpecTiger.compress SpecTigerTables.tables (3 + p)) M ++ repeat 0 (8 * k)).
Proof.
  intros k p inj junk C HC HI HJ fs HF M HS HR.
  destruct (LTigerBits.tiger_bit_feeds k p inj junk C HC HI HJ fs HF HS) as (a & E & T & R & _).
  exists a. exact (conj E (conj T (R HR))).
Qed.
Print Assumptions C06_bit_feeds_tiger_partial.

(** C06 is false of Tiger for the other bit lengths: the padding writes its marker octet past the
    end of the block. *)
Theorem C06_tiger_marker_overrun_refuted : forall k p inj junk C,
  MTiger.tiger (64 * (3 + k)) (3 + p) inj = Some C -> injector_contract LOBB 64 8 inj -> block_ok 64 8 junk ->
  forall (fs : list (list N * nat)),
  Forall (fun f => block_ok 64 8 (fst f) /\ (0 < snd f <= 512)%nat) fs ->
  let M := flat_map (fun f => firstn (snd f) (stream LOBB 64 (fst f))) fs in
  N.of_nat (length M) < 2 ^ 64 -> (504 < length M mod 512)%nat ->
  exists a, acc_feeds C inj (acc_init C junk) (map (fun f => FBlock (fst f) (snd f)) fs) = Some a /\
    acc_result C a = None.
Proof.
  intros k p inj junk C HC HI HJ fs HF M HS HR.
  destruct (LTigerBits.tiger_bit_feeds k p inj junk C HC HI HJ fs HF HS) as (a & E & _ & _ & R).
  exists a. exact (conj E (R HR)).
Qed.
Print Assumptions C06_tiger_marker_overrun_refuted.

(** Histories of both kinds: 515 bits (3 modulo 512), and 1017 bits (505 modulo 512). *)
Example C06_bit_feeds_tiger_hypotheses :
  let ok := Forall (fun f : list N * nat => block_ok 64 8 (fst f) /\ (0 < snd f <= 512)%nat) in
  let bits := fun fs => length (flat_map (fun f : list N * nat => firstn (snd f) (stream LOBB 64 (fst f))) fs) in
  let fs := [(map N.of_nat (seq 3 8), 3%nat); (map N.of_nat (seq 9 8), 512%nat)] in
  let gs := [(map N.of_nat (seq 3 8), 505%nat); (map N.of_nat (seq 9 8), 512%nat)] in
  ok fs /\ bits fs = 515%nat /\ ok gs /\ bits gs = 1017%nat.
Proof. exact LTigerBits.bit_feeds_hyp. Qed.
