(** * Properties C01-C10: Merkle-Damgard hashing through the accumulator

    Specification: SpecStream.v (bit streams), SpecMD.v (padding and chaining).
    Model: MPack.v, MAcc.v, MConstr.v. *)
From Coq Require Import NArith Arith List Bool.
From Verif Require Import SpecStream SpecMD MPack MAcc MConstr SpecHist.
From Verif Require LStream LInj LAcc LBsp LMD LMDProps LMDStmt.
Import ListNotations.

(** The Merkle-Damgard hash with the one-bit marker, as instantiated by MD4, MD5, SHA, SHA-1,
    SHA-2 and RIPEMD, and with Tiger's marker. *)
Definition md (e : endian) (w bw lb dw : nat) iv comp (inj : injector) : construction :=
  md_construction e w bw lb dw iv comp (merkle_damgard_padding inj e w bw).
Definition md_tiger (e : endian) (w bw lb dw : nat) iv comp (inj : injector) : construction :=
  md_construction e w bw lb dw iv comp (tiger_padding inj e w bw).

(** C01: one-shot digests of ranges of [vb]-bit integers. *)
Theorem C01_md_digest :
  forall e w bw lb dw iv comp inj junk vb xs,
  md_params w bw lb -> injector_contract e w bw inj -> block_ok w bw junk ->
  vb mod 8 = 0 -> 0 < vb -> w mod vb = 0 -> Forall (fits vb) xs ->
  (N.of_nat (length (stream host_order vb xs)) < 2 ^ 64)%N ->
  hash_once (md e w bw lb dw iv comp inj) inj vb junk xs =
  Some (md_hash e w bw lb (w * dw) one_marker iv comp (stream host_order vb xs)).
Proof. exact LMDStmt.md_once. Qed.
Print Assumptions C01_md_digest.

(** C01 for octet strings, the usual case. *)
Theorem C01_md_digest_octets :
  forall e w bw lb dw iv comp inj junk os,
  md_params w bw lb -> injector_contract e w bw inj -> block_ok w bw junk ->
  e = BOBB \/ e = LOBB -> Forall (fits 8) os -> (N.of_nat (8 * length os) < 2 ^ 64)%N ->
  hash_once (md e w bw lb dw iv comp inj) inj 8 junk os =
  Some (md_hash e w bw lb (w * dw) one_marker iv comp (octets_bits os)).
Proof. exact LMDStmt.md_once_octets. Qed.
Print Assumptions C01_md_digest_octets.

(** C01 with Tiger's marker. *)
Theorem C01_tiger_marker_digest_octets :
  forall e w bw lb dw iv comp inj junk os,
  md_params w bw lb -> injector_contract e w bw inj -> block_ok w bw junk ->
  e = BOBB \/ e = LOBB -> Forall (fits 8) os -> (N.of_nat (8 * length os) < 2 ^ 64)%N ->
  hash_once (md_tiger e w bw lb dw iv comp inj) inj 8 junk os =
  Some (md_hash e w bw lb (w * dw) tiger_marker iv comp (octets_bits os)).
Proof. exact LMDStmt.tiger_once_octets. Qed.
Print Assumptions C01_tiger_marker_digest_octets.


(** The parameters of SHA-256, MD5, SHA-512 and Tiger satisfy [md_params]; the two reference
    injectors satisfy the contract; a 64-octet zero block is a possible cache. *)
Example C01_hypotheses :
  md_params 32 16 64 /\ md_params 64 16 128 /\ md_params 64 8 64 /\
  injector_contract BOBB 32 16 (inj_keep BOBB 32 16) /\
  injector_contract LOBB 32 16 (inj_run LOBB 32 16) /\
  block_ok 32 16 (repeat 7%N 16) /\ Forall (fits 8) [97%N; 98%N; 99%N].
Proof. exact LMDStmt.md_example. Qed.
(** For the examples below: a cheap compression function, and with it a big-endian hash. *)
Definition sum_comp (s b : list N) : list N := map (fun x => (fold_left N.add b (3 * x + 1) mod 2 ^ 32)%N) s.
Definition sum_md (inj : injector) : construction := md BOBB 32 16 64 2 [1; 2]%N sum_comp inj.


(** C02 (Merkle-Damgard): any two ways of cutting a message into pieces give one digest. *)
Theorem C02_chunking_md :
  forall e w bw lb dw iv comp inj junk junk' ps ps',
  let C := md e w bw lb dw iv comp inj in
  let ok := fun p => fst p mod 8 = 0 /\ 0 < fst p /\ w mod fst p = 0 /\ Forall (fits (fst p)) (snd p) in
  let bits := flat_map (fun p => stream host_order (fst p) (snd p)) in
  md_params w bw lb -> injector_contract e w bw inj -> block_ok w bw junk -> block_ok w bw junk' ->
  Forall ok ps -> Forall ok ps' -> bits ps = bits ps' ->
  (N.of_nat (length (bits ps)) < 2 ^ 64)%N ->
  exists a a' d, hash_pieces C inj (acc_init C junk) ps = Some a /\
    hash_pieces C inj (acc_init C junk') ps' = Some a' /\
    acc_result C a = Some d /\ acc_result C a' = Some d.
Proof. exact LMDStmt.md_chunking. Qed.
Print Assumptions C02_chunking_md.

(** C02: in particular pieces against one call. *)
Theorem C02_pieces_equal_one_call_md :
  forall e w bw lb dw iv comp inj junk (pieces : list (list N)),
  let C := md e w bw lb dw iv comp inj in
  md_params w bw lb -> injector_contract e w bw inj -> block_ok w bw junk ->
  Forall (Forall (fits 8)) pieces -> (N.of_nat (8 * length (concat pieces)) < 2 ^ 64)%N ->
  exists a d, hash_pieces C inj (acc_init C junk) (map (fun p => (8, p)) pieces) = Some a /\
    acc_result C a = Some d /\ hash_once C inj 8 junk (concat pieces) = Some d.
Proof. exact LMDStmt.md_pieces. Qed.
Print Assumptions C02_pieces_equal_one_call_md.
(** Seventy octets, cut into pieces of three widths and into octets. *)
Example C02_hypotheses :
  let ok := fun p => fst p mod 8 = 0 /\ 0 < fst p /\ 32 mod fst p = 0 /\ Forall (fits (fst p)) (snd p) in
  let bits := flat_map (fun p : nat * list N => stream host_order (fst p) (snd p)) in
  let ps := [(8, map N.of_nat (seq 1 61)); (32, [0x41403f3e]%N); (8, []); (16, [0x4342; 0x4544]%N); (8, [0x46]%N)] in
  let ps' := [(8, map N.of_nat (seq 1 3)); (8, map N.of_nat (seq 4 67))] in
  Forall ok ps /\ Forall ok ps' /\ bits ps = bits ps' /\ length (bits ps) = 560.
Proof.
  cbv zeta. split; [|split; [|split]]; [| |vm_compute; reflexivity|vm_compute; reflexivity];
    apply Forall_forall; intros p H; repeat (destruct H as [H|H]; [subst p|]); try destruct H;
    (split; [reflexivity|split; [apply Nat.lt_0_succ|split; [reflexivity|apply Forall_forall; intros x H]]]);
    repeat (destruct H as [H|H]; [subst x; reflexivity|]); destruct H.
Qed.


(** C03: element widths may differ from call to call; the digest is that of the concatenated
    bit streams of the elements in the byte order of the machine ([host_order], SpecStream.v). *)
Theorem C03_element_width_md :
  forall e w bw lb dw iv comp inj junk ps,
  let C := md e w bw lb dw iv comp inj in
  md_params w bw lb -> injector_contract e w bw inj -> block_ok w bw junk ->
  Forall (fun p => In (fst p) [8; 16; 32; 64] /\ w mod fst p = 0 /\ Forall (fits (fst p)) (snd p)) ps ->
  (N.of_nat (length (flat_map (fun p => stream host_order (fst p) (snd p)) ps)) < 2 ^ 64)%N ->
  exists a, hash_pieces C inj (acc_init C junk) ps = Some a /\
    acc_result C a = Some (md_hash e w bw lb (w * dw) one_marker iv comp
                             (flat_map (fun p => stream host_order (fst p) (snd p)) ps)).
Proof. exact LMDStmt.md_widths. Qed.
Print Assumptions C03_element_width_md.

(** C03: a range of wide integers hashes like the octets of those integers in the order the machine
    stores them, least significant octet first, whatever the byte order of the hash. *)
Theorem C03_wide_elements_as_octets_md :
  forall e w bw lb dw iv comp inj junk n xs,
  let C := md e w bw lb dw iv comp inj in
  md_params w bw lb -> injector_contract e w bw inj -> block_ok w bw junk ->
  0 < n -> w mod (8 * n) = 0 -> Forall (fits (8 * n)) xs ->
  (N.of_nat (8 * n * length xs) < 2 ^ 64)%N ->
  hash_once C inj (8 * n) junk xs = hash_once C inj 8 junk (flat_map (octets_in_order host_order n) xs) /\
  hash_once C inj 8 junk (flat_map (octets_in_order host_order n) xs) <> None.
Proof. exact LMDStmt.md_wide. Qed.
Print Assumptions C03_wide_elements_as_octets_md.

(** C04: every extraction returns the digest of exactly the bits fed before it. *)
Theorem C04_extraction_repeatable_md :
  forall e w bw lb dw iv comp inj junk (ops : list op),
  let C := md e w bw lb dw iv comp inj in
  let H := md_hash e w bw lb (w * dw) one_marker iv comp in
  md_params w bw lb -> injector_contract e w bw inj -> block_ok w bw junk ->
  Forall (fun o => match o with
                   | OpHash vb xs => vb mod 8 = 0 /\ 0 < vb /\ w mod vb = 0 /\ Forall (fits vb) xs
                   | OpExtract => True end) ops ->
  (N.of_nat (length (flat_map (fun o => match o with OpHash vb xs => stream host_order vb xs
                                                   | OpExtract => [] end) ops)) < 2 ^ 64)%N ->
  run_ops C inj (acc_init C junk) ops =
  Some (expected host_order H [] ops).
Proof. exact LMDStmt.md_history. Qed.
Print Assumptions C04_extraction_repeatable_md.
(** A history with four extractions, its digests being those of 0, 61, 61 and 65 octets. *)
Example C04_hypotheses :
  let ops := [OpExtract; OpHash 8 (map N.of_nat (seq 1 61)); OpExtract; OpExtract; OpHash 32 [0x41403f3e]%N; OpExtract] in
  let H := md_hash BOBB 32 16 64 64 one_marker [1; 2]%N sum_comp in
  let os := fun n => octets_bits (map N.of_nat (seq 1 n)) in
  Forall (fun o => match o with
                   | OpHash vb xs => vb mod 8 = 0 /\ 0 < vb /\ 32 mod vb = 0 /\ Forall (fits vb) xs
                   | OpExtract => True end) ops /\
  run_ops (sum_md (inj_keep BOBB 32 16)) (inj_keep BOBB 32 16) (acc_init (sum_md (inj_keep BOBB 32 16)) (repeat 7%N 16)) ops =
  Some [H []; H (os 61); H (os 61); H (os 65)] /\ H (os 61) <> H (os 65).
Proof.
  cbv zeta. split; [|split]; [|vm_compute; reflexivity|vm_compute; discriminate].
  apply Forall_forall; intros p H; repeat (destruct H as [H|H]; [subst p|]); try destruct H; try exact I;
    (split; [reflexivity|split; [apply Nat.lt_0_succ|split; [reflexivity|apply Forall_forall; intros x H]]]);
    repeat (destruct H as [H|H]; [subst x; reflexivity|]); destruct H.
Qed.


(** C05: neither the initial cache, nor the behaviour of the injector beyond its contract, nor
    bits of the supplied blocks beyond the stated count influence the digest. *)
Theorem C05_no_stale_memory_md :
  forall e w bw lb dw iv comp inj inj' junk junk' (fs fs' : list (list N * nat)),
  let C := md e w bw lb dw iv comp inj in
  let C' := md e w bw lb dw iv comp inj' in
  let ok := fun f => block_ok w bw (fst f) /\ 0 < snd f <= w * bw in
  let bits := flat_map (fun f => firstn (snd f) (stream e w (fst f))) in
  let feeds := map (fun f => FBlock (fst f) (snd f)) in
  md_params w bw lb -> injector_contract e w bw inj -> injector_contract e w bw inj' ->
  block_ok w bw junk -> block_ok w bw junk' ->
  Forall ok fs -> Forall ok fs' -> bits fs = bits fs' -> (N.of_nat (length (bits fs)) < 2 ^ 64)%N ->
  exists a a' d, acc_feeds C inj (acc_init C junk) (feeds fs) = Some a /\
    acc_feeds C' inj' (acc_init C' junk') (feeds fs') = Some a' /\
    acc_result C a = Some d /\ acc_result C' a' = Some d.
Proof. exact LMDStmt.md_no_stale. Qed.
Print Assumptions C05_no_stale_memory_md.
(** Three bits and then 512, out of blocks that differ in all the bits that do not count. *)
Example C05_hypotheses :
  let ok := fun f => block_ok 32 16 (fst f) /\ 0 < snd f <= 32 * 16 in
  let bits := flat_map (fun f : list N * nat => firstn (snd f) (stream BOBB 32 (fst f))) in
  let fs := [(repeat 0xFFFFFFFF%N 16, 3); (repeat 0x12345678%N 16, 512)] in
  let fs' := [(0xE0000000%N :: repeat 0%N 15, 3); (repeat 0x12345678%N 16, 512)] in
  Forall ok fs /\ Forall ok fs' /\ bits fs = bits fs' /\ length (bits fs) = 515.
Proof.
  cbv zeta. split; [|split; [|split]]; [| |vm_compute; reflexivity|vm_compute; reflexivity];
    apply Forall_forall; intros p H; repeat (destruct H as [H|H]; [subst p|]); try destruct H;
    (split; [split; [reflexivity|apply Forall_forall; intros x H]|
             split; [apply Nat.lt_0_succ|apply Nat.leb_le; vm_compute; reflexivity]]);
    repeat (destruct H as [H|H]; [subst x; reflexivity|]); destruct H.
Qed.


(** C06: block feeds with explicit bit counts append exactly that many bits. *)
Theorem C06_bit_exact_block_feeds_md :
  forall e w bw lb dw iv comp inj junk (fs : list (list N * nat)),
  let C := md e w bw lb dw iv comp inj in
  md_params w bw lb -> injector_contract e w bw inj -> block_ok w bw junk ->
  Forall (fun f => block_ok w bw (fst f) /\ 0 < snd f <= w * bw) fs ->
  let M := flat_map (fun f => firstn (snd f) (stream e w (fst f))) fs in
  (N.of_nat (length M) < 2 ^ 64)%N ->
  exists a, acc_feeds C inj (acc_init C junk) (map (fun f => FBlock (fst f) (snd f)) fs) = Some a /\
    acc_result C a = Some (md_hash e w bw lb (w * dw) one_marker iv comp M).
Proof. exact LMDStmt.md_block_feeds_digest. Qed.
Print Assumptions C06_bit_exact_block_feeds_md.

Example C06_hypotheses :
  Forall (fun f => block_ok 32 16 (fst f) /\ 0 < snd f <= 32 * 16)
    [(repeat 0xFFFFFFFF%N 16, 3); (repeat 0x12345678%N 16, 512); (repeat 1%N 16, 509)].
Proof. exact LMDStmt.feeds_example. Qed.

(** C07 is false: a block given word by word is forgotten as soon as anything follows it.  For
    every construction, the digest after [bw] words and one more block is the same whatever the
    words were. *)
Theorem C07_word_feeds_refuted :
  forall (C : construction) inj junk (ws ws' : list N) (v : list N),
  c_word C mod 8 = 0 -> 0 < c_word C -> 0 < c_words C ->
  block_ok (c_word C) (c_words C) junk ->
  (N.of_nat (2 * (c_word C * c_words C)) < 2 ^ 64)%N ->
  block_ok (c_word C) (c_words C) ws -> block_ok (c_word C) (c_words C) ws' ->
  exists a a', acc_feeds C inj (acc_init C junk) (map (fun x => FWord x 0) ws ++ [FBlock v 0]) = Some a /\
    acc_feeds C inj (acc_init C junk) (map (fun x => FWord x 0) ws' ++ [FBlock v 0]) = Some a' /\
    acc_result C a = acc_result C a'.
Proof. exact LMDStmt.lost_words. Qed.
Print Assumptions C07_word_feeds_refuted.

(** C07, what is true: word and block feeds append their bits as long as no feed follows a word
    feed that completes a block starting at a word boundary.  Missing: histories in which such a
    feed is followed by another one. *)
Theorem C07_word_feeds_partial :
  forall e w bw lb dw iv comp inj junk (fs : list feed),
  let C := md e w bw lb dw iv comp inj in
  let bits := fun f => match f with
                       | FBlock v n => firstn (if n =? 0 then w * bw else n) (stream e w v)
                       | FWord x n => firstn (if n =? 0 then w else n) (word_stream e w x) end in
  md_params w bw lb -> injector_contract e w bw inj -> block_ok w bw junk ->
  Forall (fun f => match f with
                   | FBlock v n => block_ok w bw v /\ n <= w * bw
                   | FWord x n => fits w x /\ n <= w end) fs ->
  (forall pre x n post, fs = pre ++ FWord x n :: post -> post <> [] ->
     let l := length (flat_map bits pre) in
     (l + length (bits (FWord x n))) mod (w * bw) <> 0 \/ l mod w <> 0) ->
  (N.of_nat (length (flat_map bits fs)) < 2 ^ 64)%N ->
  exists a, acc_feeds C inj (acc_init C junk) fs = Some a /\
    acc_result C a = Some (md_hash e w bw lb (w * dw) one_marker iv comp (flat_map bits fs)).
Proof. exact LMDStmt.md_mixed. Qed.
Print Assumptions C07_word_feeds_partial.

(** C08 is false when the bit count is omitted: the block is hashed, nothing is counted. *)
Theorem C08_bits_count_refuted :
  forall (C : construction) inj junk v,
  0 < c_word C -> 0 < c_words C -> (N.of_nat (c_word C * c_words C) < 2 ^ 64)%N ->
  exists a, acc_feeds C inj (acc_init C junk) [FBlock v 0] = Some a /\
    total a = N.of_nat (c_word C * c_words C) /\ bits_count [FBlock v 0] = 0%N /\
    bits_count [FBlock v 0] <> total a.
Proof. exact LMDStmt.bits_count_wrong. Qed.
Print Assumptions C08_bits_count_refuted.

(** C08, what is true: with explicit bit counts the counter equals the hashed bits. *)
Theorem C08_bits_count_partial :
  forall e w bw lb dw iv comp inj junk (fs : list (list N * nat)),
  let C := md e w bw lb dw iv comp inj in
  let feeds := map (fun f => FBlock (fst f) (snd f)) fs in
  md_params w bw lb -> injector_contract e w bw inj -> block_ok w bw junk ->
  Forall (fun f => block_ok w bw (fst f) /\ 0 < snd f <= w * bw) fs ->
  (N.of_nat (list_sum (map snd fs)) < 2 ^ 64)%N ->
  exists a, acc_feeds C inj (acc_init C junk) feeds = Some a /\
    bits_count feeds = N.of_nat (list_sum (map snd fs)) /\ total a = bits_count feeds.
Proof. exact LMDStmt.bits_count_right. Qed.
Print Assumptions C08_bits_count_partial.
(** A run: the counter without and with bit counts, and the bits hashed. *)
Example C08_run :
  let C := sum_md (inj_keep BOBB 32 16) in
  let blk := repeat 0x12345678%N 16 in
  let run := fun fs => option_map (fun a => (total a, bits_count fs)) (acc_feeds C (inj_keep BOBB 32 16) (acc_init C blk) fs) in
  run [FBlock blk 512; FBlock blk 5; FBlock blk 0] = Some (1029, 517)%N /\
  run [FBlock blk 512; FBlock blk 5; FBlock blk 300] = Some (817, 817)%N.
Proof. split; vm_compute; reflexivity. Qed.


(** C09: the padding is injective... *)
Theorem C09_padding_injective :
  forall e bb lb marker M1 M2,
  lb mod 8 = 0 -> 64 <= lb ->
  (N.of_nat (length M1) < 2 ^ 64)%N -> (N.of_nat (length M2) < 2 ^ 64)%N ->
  md_pad e bb lb marker M1 = md_pad e bb lb marker M2 -> M1 = M2.
Proof. exact LMDProps.md_pad_inj. Qed.
Print Assumptions C09_padding_injective.

(** ... and a collision of the chaining value is a collision of the compression function, between a call made
    for one message and a call made for the other. *)
Theorem C09_collision_resistance_preserved :
  forall e w bw lb marker iv comp M1 M2,
  md_params w bw lb ->
  (N.of_nat (length M1) < 2 ^ 64)%N -> (N.of_nat (length M2) < 2 ^ 64)%N -> M1 <> M2 ->
  md_chain e w bw comp iv (md_pad e (w * bw) lb marker M1) =
  md_chain e w bw comp iv (md_pad e (w * bw) lb marker M2) ->
  collision_among comp (md_comp_calls e w bw lb marker iv comp M1) (md_comp_calls e w bw lb marker iv comp M2).
Proof. exact LMDStmt.md_collision_params. Qed.
Print Assumptions C09_collision_resistance_preserved.

(** In terms of digests, when the digest is the whole state: two octet strings with one digest contain a
    collision of the compression function, with either marker. *)
Theorem C09_digest_collision :
  forall e w bw lb sw iv comp inj inj' junk junk' os os' d,
  md_params w bw lb -> injector_contract e w bw inj -> injector_contract e w bw inj' ->
  block_ok w bw junk -> block_ok w bw junk' -> e = BOBB \/ e = LOBB ->
  (forall s x, block_ok w sw s -> block_ok w bw x -> block_ok w sw (comp s x)) -> block_ok w sw iv ->
  Forall (fits 8) os -> Forall (fits 8) os' ->
  (N.of_nat (8 * length os) < 2 ^ 64)%N -> (N.of_nat (8 * length os') < 2 ^ 64)%N -> os <> os' ->
  (hash_once (md e w bw lb sw iv comp inj) inj 8 junk os = Some d ->
   hash_once (md e w bw lb sw iv comp inj') inj' 8 junk' os' = Some d ->
   collision_among comp (md_comp_calls e w bw lb one_marker iv comp (octets_bits os))
                        (md_comp_calls e w bw lb one_marker iv comp (octets_bits os'))) /\
  (hash_once (md_tiger e w bw lb sw iv comp inj) inj 8 junk os = Some d ->
   hash_once (md_tiger e w bw lb sw iv comp inj') inj' 8 junk' os' = Some d ->
   collision_among comp (md_comp_calls e w bw lb tiger_marker iv comp (octets_bits os))
                        (md_comp_calls e w bw lb tiger_marker iv comp (octets_bits os'))).
Proof. exact LMDStmt.md_digest_collision. Qed.
Print Assumptions C09_digest_collision.
(** A compression function with collisions, and a colliding pair of messages. *)
Example C09_colliding_pair :
  let comp := fun s x => map (fun p => (N.lxor (fst p) (snd p) mod 2)%N) (combine s (firstn 5 x)) in
  let H := hash_once (md LOBB 32 16 64 5 (repeat 0%N 5) comp (inj_keep LOBB 32 16)) (inj_keep LOBB 32 16) 8 (repeat 7%N 16) in
  H [97; 98; 99]%N <> None /\ H [97; 98; 99]%N = H [99; 98; 99]%N /\
  (forall s x, block_ok 32 5 s -> block_ok 32 16 x -> block_ok 32 5 (comp s x)).
Proof. exact LMDStmt.colliding_pair. Qed.

Example C09_hypotheses : md_params 32 16 64 /\ [true] <> [true; false].
Proof. exact LMDStmt.c09_example. Qed.

(** C10: run with a compressor that records its blocks, a digest call has processed exactly the
    padded message, block after block, and there are ceil((n + 1 + length_bits) / block_bits)
    of them. *)
Theorem C10_compression_calls :
  forall e w bw lb inj junk ps,
  let bits := flat_map (fun p => stream host_order (fst p) (snd p)) ps in
  let calls := (length bits + 1 + lb + (w * bw - 1)) / (w * bw) in
  let C := md e w bw lb (bw * calls) [] (fun s b => s ++ b) inj in
  md_params w bw lb -> injector_contract e w bw inj -> block_ok w bw junk ->
  Forall (fun p => fst p mod 8 = 0 /\ 0 < fst p /\ w mod fst p = 0 /\ Forall (fits (fst p)) (snd p)) ps ->
  (N.of_nat (length bits) < 2 ^ 64)%N ->
  exists a d, hash_pieces C inj (acc_init C junk) ps = Some a /\ acc_result C a = Some d /\
    stream e 8 d = md_pad e (w * bw) lb one_marker bits /\
    length (stream e 8 d) = w * bw * calls.
Proof. exact LMDStmt.md_calls. Qed.
Print Assumptions C10_compression_calls.
(** C09 and C10 together: different messages give the compressor different blocks, however each is fed. *)
Theorem C09_blocks_differ :
  forall e w bw lb inj inj' junk junk' ps ps',
  let bits := fun ps => flat_map (fun p => stream host_order (fst p) (snd p)) ps in
  let calls := fun ps => (length (bits ps) + 1 + lb + (w * bw - 1)) / (w * bw) in
  let C := fun inj ps => md e w bw lb (bw * calls ps) [] (fun s b => s ++ b) inj in
  let ok := fun ps => Forall (fun p => fst p mod 8 = 0 /\ 0 < fst p /\ w mod fst p = 0 /\ Forall (fits (fst p)) (snd p)) ps /\
                      (N.of_nat (length (bits ps)) < 2 ^ 64)%N in
  md_params w bw lb -> injector_contract e w bw inj -> injector_contract e w bw inj' ->
  block_ok w bw junk -> block_ok w bw junk' -> ok ps -> ok ps' -> bits ps <> bits ps' ->
  exists a d a' d',
    hash_pieces (C inj ps) inj (acc_init (C inj ps) junk) ps = Some a /\ acc_result (C inj ps) a = Some d /\
    hash_pieces (C inj' ps') inj' (acc_init (C inj' ps') junk') ps' = Some a' /\ acc_result (C inj' ps') a' = Some d' /\
    d <> d'.
Proof.
  intros e w bw lb inj inj' junk junk' ps ps' bits calls C ok HP HI HI' HJ HJ' [H1 H2] [H1' H2'] HN.
  destruct (LMDStmt.md_calls e w bw lb inj junk ps HP HI HJ H1 H2) as (a & d & E & R & S & _).
  destruct (LMDStmt.md_calls e w bw lb inj' junk' ps' HP HI' HJ' H1' H2') as (a' & d' & E' & R' & S' & _).
  exists a, d, a', d'. split; [exact E|]. split; [exact R|]. split; [exact E'|]. split; [exact R'|]. intros <-. apply HN.
  exact (LMDProps.md_pad_inj e (w * bw) lb one_marker _ _ (LMDStmt.lb_mod8 w bw lb HP) (proj1 (mp_lb _ _ _ HP)) H2 H2' (eq_trans (eq_sym S) S')).
Qed.
Print Assumptions C09_blocks_differ.
(** 55 octets need one call, 56 need two; the blocks of the latter. *)
Example C10_run :
  let run := fun n k =>
    let C := md BOBB 32 16 64 (16 * k) [] (fun s b => s ++ b) (inj_keep BOBB 32 16) in
    hash_once C (inj_keep BOBB 32 16) 8 (repeat 7%N 16) (repeat 97%N n) in
  run 55 1 = Some (repeat 97 55 ++ [0x80; 0; 0; 0; 0; 0; 0; 1; 0xb8])%N /\
  run 56 2 = Some (repeat 97 56 ++ [0x80] ++ repeat 0 69 ++ [1; 0xc0])%N.
Proof. split; vm_compute; reflexivity. Qed.

