(** * Properties C23-C26, C45-C47: helpers, digest shape, entry points

    Specification: SpecDer.v (DigestInfo), SpecHash.v (entry points), SpecStream.v, SpecWords.v.
    Model: MMisc.v, MHash.v, MPack.v. *)
From Coq Require Import NArith Arith List Bool.
From Verif Require Import SpecStream SpecMD SpecDer SpecWords SpecHist SpecOctets SpecHash SpecSponge SpecBlake2b.
From Verif Require Import MPack MAcc MConstr MMisc MHash MKeccak MBlake2b.
From Verif Require LMisc LHash LHashStmt LInj.
Import ListNotations.

(** C23: Davies-Meyer: every word of the new state is h_i + E_m(h)_i modulo 2^w, for every cipher
    that maps states to states. *)
Theorem C23_davies_meyer :
  forall w (E : list N -> list N -> list N) h m, length (E m h) = length h ->
  let h' := davies_meyer E (state_adder w) h m in
  length h' = length h /\
  forall i, i < length h -> nth i h' 0%N = ((nth i h 0 + nth i (E m h) 0) mod 2 ^ N.of_nat w)%N.
Proof. exact LMisc.dm_ok. Qed.
Print Assumptions C23_davies_meyer.

(** C23: Matyas-Meyer-Oseas: E_g(h)(m) + m. *)
Theorem C23_matyas_meyer_oseas :
  forall w (E : list N -> list N -> list N) (g : list N -> list N) h m, length (E (g h) m) = length m ->
  let h' := matyas_meyer_oseas E (state_adder w) g h m in
  length h' = length m /\
  forall i, i < length m -> nth i h' 0%N = ((nth i (E (g h) m) 0 + nth i m 0) mod 2 ^ N.of_nat w)%N.
Proof. exact LMisc.mmo_ok. Qed.
Print Assumptions C23_matyas_meyer_oseas.

(** C23: Miyaguchi-Preneel: E_g(h)(m) + m + h. *)
Theorem C23_miyaguchi_preneel :
  forall w (E : list N -> list N -> list N) (g : list N -> list N) h m,
  length (E (g h) m) = length m -> length h = length m ->
  let h' := miyaguchi_preneel E (state_adder w) g h m in
  length h' = length m /\
  forall i, i < length m -> nth i h' 0%N = ((nth i (E (g h) m) 0 + nth i m 0 + nth i h 0) mod 2 ^ N.of_nat w)%N.
Proof. exact LMisc.mp_ok. Qed.
Print Assumptions C23_miyaguchi_preneel.

Example C23_hypotheses :
  let E k t := map (fun x => N.lxor x (nth 0 k 0%N)) t in
  length (E [9%N] [1%N; 2%N; 3%N]) = length [1%N; 2%N; 3%N] /\
  davies_meyer E (state_adder 32) [0xFFFFFFFF; 2; 3]%N [9]%N = [0xFFFFFFF5; 13; 13]%N.
Proof. split; reflexivity. Qed.

(** C24: the prefix followed by any digest of the right size is a DigestInfo with the object
    identifier of the hash and that digest, for MD5, SHA-1, SHA-3, RIPEMD-160 and Tiger... *)
Theorem C24_digest_info_partial :
  forall prefix arcs n, In (prefix, arcs, n)
    [(pkcs_md5, id_md5, 16); (pkcs_sha1, id_sha1, 20); (pkcs_sha3_224, id_sha3_224, 28);
     (pkcs_sha3_256, id_sha3_256, 32); (pkcs_sha3_384, id_sha3_384, 48); (pkcs_sha3_512, id_sha3_512, 64);
     (pkcs_ripemd 160, id_ripemd160, 20); (pkcs_tiger, id_tiger192, 24)] ->
  forall d, length d = n -> digest_info (prefix ++ d) = Some (arcs, d).
Proof. exact LMisc.der_good. Qed.
Print Assumptions C24_digest_info_partial.

(** ... but false for SHA-256, SHA-512 and the other RIPEMD sizes: whatever the digest, the result
    is not a DigestInfo at all... *)
Theorem C24_malformed_refuted :
  forall prefix n, In (prefix, n)
    [(pkcs_sha2_256, 32); (pkcs_sha2_512, 64); (pkcs_ripemd 128, 16); (pkcs_ripemd 256, 32); (pkcs_ripemd 320, 40)] ->
  forall d, length d = n -> digest_info (prefix ++ d) = None.
Proof. exact LMisc.der_bad_lengths. Qed.
Print Assumptions C24_malformed_refuted.

(** ... and the prefix of hashes::sha (SHA-0) names SHA-1. *)
Theorem C24_sha0_names_sha1_refuted :
  forall d, length d = 20 -> digest_info (pkcs_sha ++ d) = Some (id_sha1, d) /\ id_sha1 <> id_sha0.
Proof. exact LMisc.der_sha0. Qed.
Print Assumptions C24_sha0_names_sha1_refuted.
(** The DigestInfo of a SHA-1 digest, and what the code makes of a SHA-256 digest. *)
Example C24_run :
  digest_info (pkcs_sha1 ++ map N.of_nat (seq 100 20)) = Some ([1; 3; 14; 3; 2; 26]%N, map N.of_nat (seq 100 20)) /\
  digest_info (pkcs_sha2_256 ++ map N.of_nat (seq 100 32)) = None.
Proof. split; vm_compute; reflexivity. Qed.

(** C25: pow over any monoid: at most 2 * (number of bits of n) + 1 iterations, and the result is the
    product of n copies of x. *)
Theorem C25_pow :
  forall (T : Type) (mul : T -> T -> T) (one : T),
  (forall a b c, mul a (mul b c) = mul (mul a b) c) -> (forall a, mul one a = a) -> (forall a, mul a one = a) ->
  forall fuel x n, 2 * N.to_nat (N.size n) < fuel ->
  pow mul one fuel x n = Some (fold_right mul one (repeat x (N.to_nat n))).
Proof. exact LMisc.pow_product. Qed.
Print Assumptions C25_pow.

(** C25 for unsigned [w]-bit integers. *)
Theorem C25_pow_unsigned :
  forall w x n fuel, 0 < w -> fits w x -> 2 * N.to_nat (N.size n) < fuel ->
  pow (fun a b => (a * b) mod 2 ^ N.of_nat w)%N 1%N fuel x n = Some (x ^ n mod 2 ^ N.of_nat w)%N.
Proof. exact LMisc.pow_unsigned. Qed.
Print Assumptions C25_pow_unsigned.

Example C25_hypotheses :
  (forall a b c, (a * (b * c) = a * b * c)%N) /\ (forall a, (1 * a = a)%N) /\ (forall a, (a * 1 = a)%N) /\
  pow N.mul 1%N 9 3%N 13%N = Some 1594323%N /\ 2 * N.to_nat (N.size 13) < 9.
Proof. exact LMisc.pow_example. Qed.

(** C26: strxor on ranges of one memory.  The output may be disjoint from an input, start at it, or
    start before it; exactly the [n] output cells change. *)
Theorem C26_strxor :
  forall m p1 p2 out n,
  (p1 + n <= out \/ out + n <= p1 \/ out <= p1) -> (p2 + n <= out \/ out + n <= p2 \/ out <= p2) ->
  exists m', strxor m p1 n p2 n out = Some (m', out + n) /\
    (forall i, i < n -> m' (out + i) = N.lxor (m (p1 + i)) (m (p2 + i))) /\
    (forall q, q < out \/ out + n <= q -> m' q = m q).
Proof. exact LMisc.strxor_ok. Qed.
Print Assumptions C26_strxor.

(** C26: in place, twice with the same second operand: all of memory is as before. *)
Theorem C26_strxor_twice :
  forall m p1 p2 n, p1 + n <= p2 \/ p2 + n <= p1 ->
  exists m' m'', strxor m p1 n p2 n p1 = Some (m', p1 + n) /\ strxor m' p1 n p2 n p1 = Some (m'', p1 + n) /\
    forall q, m'' q = m q.
Proof. exact LMisc.strxor_twice. Qed.
Print Assumptions C26_strxor_twice.
(** Two cells overlapped from the left, a third operand elsewhere; outside the hypotheses (the output one cell
    after an input) the result is another one. *)
Example C26_run :
  let m := fun q => N.of_nat (q * q + 1) in
  let run := fun out => option_map (fun r => map (fst r) (seq 0 8)) (strxor m 1 3 5 3 out) in
  (1 + 3 <= 0 \/ 0 + 3 <= 1 \/ 0 <= 1) /\ (5 + 3 <= 0 \/ 0 + 3 <= 5 \/ 0 <= 5) /\
  run 0 = Some [24; 32; 56; 10; 17; 26; 37; 50]%N /\
  run 2 <> Some ([1; 2] ++ map (fun i => N.lxor (m (1 + i)%nat) (m (5 + i)%nat)) (seq 0 3) ++ [26; 37; 50])%N.
Proof.
  split; [right; right; apply Nat.le_0_l|]. split; [right; right; apply Nat.le_0_l|].
  split; vm_compute; [reflexivity|discriminate].
Qed.

(** C45: in every history of feeds and extractions every digest has digest_bits / 8 octets. *)
Theorem C45_digest_size_md :
  forall e w bw lb dw iv comp inj junk ops sw,
  let C := md_construction e w bw lb dw iv comp (merkle_damgard_padding inj e w bw) in
  md_params w bw lb -> injector_contract e w bw inj -> block_ok w bw junk ->
  (forall s b, length s = sw -> length (comp s b) = sw) -> length iv = sw -> dw <= sw ->
  Forall (fun o => match o with
                   | OpHash vb xs => vb mod 8 = 0 /\ 0 < vb /\ w mod vb = 0 /\ Forall (fits vb) xs
                   | OpExtract => True end) ops ->
  (N.of_nat (length (flat_map (fun o => match o with OpHash vb xs => stream host_order vb xs
                                                   | OpExtract => [] end) ops)) < 2 ^ 64)%N ->
  exists ds, run_ops C inj (acc_init C junk) ops = Some ds /\
    Forall (fun d => length d = w * dw / 8 /\ Forall (fun o => (o < 256)%N) d) ds.
Proof. exact LHashStmt.shape_md. Qed.
Print Assumptions C45_digest_size_md.

Theorem C45_digest_size_sponge :
  forall d injb inj junk C H ops,
  sponge_size d -> injector_contract BOLB 64 (keccak_words d) injb -> sponge_hash d injb C H ->
  injector_contract BOBB 64 (keccak_words d) inj -> block_ok 64 (keccak_words d) junk ->
  Forall (fun o => match o with
                   | OpHash vb xs => vb mod 8 = 0 /\ 0 < vb /\ 64 mod vb = 0 /\ Forall (fits vb) xs
                   | OpExtract => True end) ops ->
  (N.of_nat (8 * length (history_octets host_order ops)) < 2 ^ 64)%N ->
  exists ds, run_ops C inj (acc_init C junk) ops = Some ds /\
    Forall (fun x => length x = d / 8 /\ Forall (fun o => (o < 256)%N) x) ds.
Proof. exact LHashStmt.shape_sponge. Qed.
Print Assumptions C45_digest_size_sponge.

Theorem C45_digest_size_blake2b :
  forall db ic inj junk ops,
  db mod 8 = 0 /\ 0 < db <= 512 -> injector_contract LOBB 64 16 ic ->
  injector_contract LOBB 64 16 inj -> block_ok 64 16 junk ->
  Forall (fun o => match o with
                   | OpHash vb xs => vb mod 8 = 0 /\ 0 < vb /\ 64 mod vb = 0 /\ Forall (fits vb) xs
                   | OpExtract => True end) ops ->
  (N.of_nat (8 * length (history_octets host_order ops)) < 2 ^ 64)%N ->
  exists ds, run_ops (blake2b ic db) inj (acc_init (blake2b ic db) junk) ops = Some ds /\
    Forall (fun x => length x = db / 8 /\ Forall (fun o => (o < 256)%N) x) ds.
Proof. exact LHashStmt.shape_blake. Qed.
Print Assumptions C45_digest_size_blake2b.
(** A compression function that keeps the size of its state, and a history of two extractions. *)
Example C45_run :
  let comp := fun s b : list N => map (fun x => N.lxor x (nth 3 b 0%N)) s in
  let inj := inj_keep LOBB 32 16 in
  let C := md_construction LOBB 32 16 64 2 [5; 6; 7]%N comp (merkle_damgard_padding inj LOBB 32 16) in
  (forall s b, length s = 3 -> length (comp s b) = 3) /\
  option_map (map (@length N))
    (run_ops C inj (acc_init C (repeat 7%N 16)) [OpExtract; OpHash 8 [97; 98; 99]%N; OpHash 32 [9]%N; OpExtract]) = Some [8; 8].
Proof.
  split; [|vm_compute; reflexivity]. intros s b H. rewrite map_length. exact H.
Qed.

(** C46: packing keeps the number of bits and the bit stream and is undone by packing back. *)
Theorem C46_pack_round_trip :
  forall e1 e2 w1 w2 xs, w1 mod 8 = 0 -> 0 < w1 -> w2 mod 8 = 0 -> 0 < w2 ->
  Forall (fits w1) xs -> (w1 * length xs) mod w2 = 0 ->
  let ys := pack e1 e2 w1 w2 xs in
  w2 * length ys = w1 * length xs /\ Forall (fits w2) ys /\ stream e2 w2 ys = stream e1 w1 xs /\
  pack e2 e1 w2 w1 ys = xs.
Proof. exact LMisc.pack_round_trip. Qed.
Print Assumptions C46_pack_round_trip.

(** C46: octets to words in the two byte orders, in terms of the usual positional values. *)
Theorem C46_pack_octets_to_words :
  forall n os, 0 < n -> Forall (fits 8) os ->
  pack BOBB BOBB 8 (8 * n) os = be_words n os /\ pack BOBB LOBB 8 (8 * n) os = le_words n os /\
  pack LOBB LOBB 8 (8 * n) os = le_words n os /\ pack LOBB BOBB 8 (8 * n) os = be_words n os.
Proof. exact LMisc.pack_octets_words. Qed.
Print Assumptions C46_pack_octets_to_words.

Example C46_hypotheses :
  Forall (fits 16) [0x1234; 0x5678; 0x9abc; 0xdef0]%N /\ (16 * 4) mod 32 = 0 /\
  pack BOBB LOBB 16 32 [0x1234; 0x5678; 0x9abc; 0xdef0]%N = [0x78563412; 0xf0debc9a]%N /\
  be_words 4 [0x12; 0x34; 0x56; 0x78]%N = [0x12345678]%N.
Proof. split; [repeat constructor|]. split; [reflexivity|]. split; reflexivity. Qed.

(** C47: all forms of hash<H> applied to the [n] elements at [first] give the digest of these
    elements (and so agree): iterator, range and initializer_list arguments, result by conversion,
    to an output iterator (even into the input itself), or in an accumulator, and the adaptor. *)
Theorem C47_entry_points_md :
  forall e w bw lb dw iv comp inj digits (sg : bool) m first n,
  md_params w bw lb -> injector_contract e w bw inj ->
  let vb := if sg then S digits else digits in
  vb mod 8 = 0 -> 0 < vb -> w mod vb = 0 ->
  (forall i, i < n -> fits vb (m (first + i))) -> (N.of_nat (vb * n) < 2 ^ 64)%N ->
  every_entry_point (md_construction e w bw lb dw iv comp (merkle_damgard_padding inj e w bw)) inj digits sg
    (block_ok w bw) m first n
    (md_hash e w bw lb (w * dw) one_marker iv comp (stream host_order vb (read_range m first n))).
Proof. exact LHashStmt.entry_md. Qed.
Print Assumptions C47_entry_points_md.

Theorem C47_entry_points_sponge :
  forall d injb inj C H digits (sg : bool) m first n,
  sponge_size d -> injector_contract BOLB 64 (keccak_words d) injb -> sponge_hash d injb C H ->
  injector_contract BOBB 64 (keccak_words d) inj ->
  let vb := if sg then S digits else digits in
  vb mod 8 = 0 -> 0 < vb -> 64 mod vb = 0 ->
  (forall i, i < n -> fits vb (m (first + i))) -> (N.of_nat (vb * n) < 2 ^ 64)%N ->
  every_entry_point C inj digits sg (block_ok 64 (keccak_words d)) m first n
    (H (range_octets host_order vb (read_range m first n))).
Proof. exact LHashStmt.entry_sponge. Qed.
Print Assumptions C47_entry_points_sponge.

Theorem C47_entry_points_blake2b :
  forall db ic inj digits (sg : bool) m first n,
  db mod 8 = 0 /\ 0 < db <= 512 -> injector_contract LOBB 64 16 ic -> injector_contract LOBB 64 16 inj ->
  let vb := if sg then S digits else digits in
  In vb [8; 16; 32; 64] ->
  (forall i, i < n -> fits vb (m (first + i))) -> (N.of_nat (vb * n) < 2 ^ 64)%N ->
  every_entry_point (blake2b ic db) inj digits sg (block_ok 64 16) m first n
    (BLAKE2b_observed (db / 8) (range_octets host_order vb (read_range m first n))).
Proof. exact LHashStmt.entry_blake. Qed.
Print Assumptions C47_entry_points_blake2b.

(** A char is 7 digits and a sign. *)
Example C47_hypotheses : (if true then S 7 else 7) = 8 /\
  (forall i, i < 3 -> fits 8 ((fun q => N.of_nat (97 + q)) (100 + i))).
Proof. exact LHashStmt.entry_example. Qed.

(** C51 is false: taking the digest as an array of another size is not checked.  A smaller array is
    written beyond its end ([None]); a larger one keeps its old content after the digest. *)
Theorem C51_small_array_overflows_refuted :
  forall C size junk a d, acc_result C a = Some d -> size < length d -> as_array C size junk a = None.
Proof. exact LHash.array_small. Qed.
Print Assumptions C51_small_array_overflows_refuted.

Theorem C51_large_array_uninitialised_refuted :
  forall C size junk a d i, acc_result C a = Some d -> length d <= i < size -> length junk = size ->
  exists out, as_array C size junk a = Some out /\ length out = size /\
    firstn (length d) out = d /\ nth i out 0%N = nth i junk 0%N.
Proof. exact LHash.array_large. Qed.
Print Assumptions C51_large_array_uninitialised_refuted.
(** A digest of eight octets taken as seven, eight and ten. *)
Example C51_run :
  let comp := fun s b : list N => map (fun x => N.lxor x (nth 0 b 0%N)) s in
  let inj := inj_keep LOBB 32 16 in
  let C := md_construction LOBB 32 16 64 2 [5; 6; 7]%N comp (merkle_damgard_padding inj LOBB 32 16) in
  let a := acc_init C (repeat 7%N 16) in
  let take := fun n => as_array C n (repeat 0xaa%N n) a in
  acc_result C a = Some [0x85; 0; 0; 0; 0x86; 0; 0; 0]%N /\ take 7 = None /\
  take 8 = acc_result C a /\ take 10 = Some [0x85; 0; 0; 0; 0x86; 0; 0; 0; 0xaa; 0xaa]%N.
Proof. repeat split; vm_compute; reflexivity. Qed.
