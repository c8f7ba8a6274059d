(** * Properties C27-C30 and C63: expand_message_xmd and hash_to_field

    Specification: SpecXmd.v (RFC 9380), SpecOctetHash.v (what the underlying hash must do; shown below for
    the modelled hashes), SpecXmdHist.v (histories).  Model: MXmd.v. *)
From Coq Require Import NArith Arith List Bool.
From Verif Require Import SpecStream MPack MAcc SpecOctets SpecOctetHash SpecXmd MXmd SpecXmdHist.
From Verif Require Import SpecMD MConstr SpecKeccak MKeccak SpecSponge SpecBlake2b MBlake2b.
From Verif Require LXmdStmt LXmdSep LXmdRange PMD.
Import ListNotations.

(** C27: for output lengths that are multiples of the digest size, and the message fed in any pieces, the
    result is that of RFC 9380. *)
Theorem C27_expand_message_xmd :
  forall C inj H r b k len dst junk,
  octet_hash C inj H -> digest_octets H b -> input_block_octets C r ->
  Forall (fits 8) dst -> 16 <= length dst <= 255 -> block_ok (c_word C) (c_words C) junk ->
  accepted b k len = true ->
  forall pieces junks buf, len mod b = 0 -> 0 < len -> Forall (piece_ok C) pieces ->
  (forall i, block_ok (c_word C) (c_words C) (junks i)) -> length buf = len ->
  (N.of_nat (8 * length (msg_prime r (pieces_octets (c_host C) pieces) dst len)) < 2 ^ 64)%N ->
  exists a, xmd_init C inj junk = Some a /\
    xmd_run C inj b len dst a (updates pieces ++ [XExtract junks buf]) =
    Some [expand_message_xmd H b r (pieces_octets (c_host C) pieces) dst len].
Proof. exact LXmdStmt.once. Qed.
Print Assumptions C27_expand_message_xmd.

(** Lengths are accepted as in section 5.3.1 of the RFC: at most 65535 octets, made from at most 255 digests of
    at least 2k bits. *)
Theorem C27_accepted : forall b k len, 0 < b ->
  accepted b k len = true <-> 2 * k <= 8 * b /\ (N.of_nat len <= 65535)%N /\ len <= 255 * b.
Proof. exact LXmdStmt.accepted_iff. Qed.
Print Assumptions C27_accepted.

(** The hashes that meet [octet_hash] and [digest_octets]. *)
Theorem C27_sponge_hashes : forall d injb inj C H,
  sponge_size d -> injector_contract BOLB 64 (keccak_words d) injb -> sponge_hash d injb C H ->
  injector_contract BOBB 64 (keccak_words d) inj -> octet_hash C inj H /\ digest_octets H (d / 8).
Proof.
  exact (fun d injb inj C H a b c e =>
    conj (LXmdStmt.sha3_octet_hash d injb inj C H a b c e) (LXmdStmt.sponge_digest_octets d injb C H a c)).
Qed.
Print Assumptions C27_sponge_hashes.
Theorem C27_md_hashes : forall e w bw lb dw sw iv comp inj,
  e = BOBB \/ e = LOBB -> md_params w bw lb -> injector_contract e w bw inj ->
  0 < dw <= sw -> (N.of_nat dw < 2 ^ 50)%N ->
  (forall s x, length s = sw -> length (comp s x) = sw) -> length iv = sw ->
  let H := fun os => md_hash e w bw lb (w * dw) one_marker iv comp (octets_bits os) in
  octet_hash (PMD.md e w bw lb dw iv comp inj) inj H /\ digest_octets H (w / 8 * dw).
Proof.
  exact (fun e w bw lb dw sw iv comp inj a b c d f g h =>
    conj (LXmdStmt.md_octet_hash e w bw lb dw iv comp inj a b c) (LXmdStmt.md_digest_octets e w bw lb dw sw iv comp b d f g h)).
Qed.
Print Assumptions C27_md_hashes.
Theorem C27_blake2b : forall db ic inj,
  db mod 8 = 0 /\ 0 < db <= 512 -> injector_contract LOBB 64 16 ic -> injector_contract LOBB 64 16 inj ->
  octet_hash (blake2b ic db) inj (BLAKE2b_observed (db / 8)).
Proof. exact LXmdStmt.blake2b_octet_hash. Qed.
Print Assumptions C27_blake2b.

(** The remaining hypotheses: a DST, an accepted length, pieces of 8- and 16-bit elements. *)
Example C27_hypotheses :
  accepted 32 128 128 = true /\ 128 mod 32 = 0 /\ input_block_octets (sha3 (inj_run BOLB 64 17) 256) 136 /\ 16 <= length (repeat 65%N 20) <= 255 /\
  Forall (piece_ok (sha3 (inj_run BOLB 64 17) 256)) [(8, [97; 98]%N); (16, [0x6463; 0x6665]%N)] /\
  pieces_octets host_order [(8, [97; 98]%N); (16, [0x6463; 0x6665]%N)] = [97; 98; 99; 100; 101; 102]%N.
Proof. repeat split; repeat constructor. Qed.

(** C28: an accepted output length that is not a positive multiple of the digest size makes the last copy
    write past the end of the result array. *)
Theorem C28_stays_inside_refuted :
  forall C inj H r b k len dst junk,
  octet_hash C inj H -> digest_octets H b -> input_block_octets C r ->
  Forall (fits 8) dst -> 16 <= length dst <= 255 -> block_ok (c_word C) (c_words C) junk ->
  accepted b k len = true ->
  forall pieces junks buf, len mod b <> 0 \/ len = 0 -> Forall (piece_ok C) pieces ->
  (forall i, block_ok (c_word C) (c_words C) (junks i)) -> length buf = len ->
  (N.of_nat (8 * length (msg_prime r (pieces_octets (c_host C) pieces) dst len)) < 2 ^ 64)%N ->
  exists a, xmd_init C inj junk = Some a /\
    xmd_run C inj b len dst a (updates pieces ++ [XExtract junks buf]) = None.
Proof. exact LXmdStmt.overflow. Qed.
Print Assumptions C28_stays_inside_refuted.
(** Such lengths are accepted: 48 octets from a 32-octet digest. *)
Example C28_hypotheses : accepted 32 128 48 = true /\ 48 mod 32 <> 0.
Proof. split; [reflexivity|discriminate]. Qed.

(** C28, the part that holds: otherwise all the writes are inside, and they fill the array.
    Missing: the other lengths (refuted above). *)
Theorem C28_stays_inside_partial :
  forall C inj H r b k len dst junk,
  octet_hash C inj H -> digest_octets H b -> input_block_octets C r ->
  Forall (fits 8) dst -> 16 <= length dst <= 255 -> block_ok (c_word C) (c_words C) junk ->
  accepted b k len = true ->
  forall pieces junks buf, len mod b = 0 -> 0 < len -> Forall (piece_ok C) pieces ->
  (forall i, block_ok (c_word C) (c_words C) (junks i)) -> length buf = len ->
  (N.of_nat (8 * length (msg_prime r (pieces_octets (c_host C) pieces) dst len)) < 2 ^ 64)%N ->
  exists a u, xmd_init C inj junk = Some a /\
    xmd_run C inj b len dst a (updates pieces ++ [XExtract junks buf]) = Some [u] /\
    length u = len /\ Forall (fits 8) u.
Proof. exact LXmdStmt.inside. Qed.
Print Assumptions C28_stays_inside_partial.

(** C29: hash_to_field. *)
Theorem C29_hash_to_field :
  forall C inj H r b k p m L count dst junk,
  octet_hash C inj H -> digest_octets H b -> input_block_octets C r ->
  Forall (fits 8) dst -> 16 <= length dst <= 255 -> block_ok (c_word C) (c_words C) junk ->
  accepted b k (count * m * L) = true ->
  forall pieces junks buf, (count * m * L) mod b = 0 -> 0 < count * m * L -> Forall (piece_ok C) pieces ->
  (forall i, block_ok (c_word C) (c_words C) (junks i)) -> length buf = count * m * L ->
  (N.of_nat (8 * length (msg_prime r (pieces_octets (c_host C) pieces) dst (count * m * L))) < 2 ^ 64)%N ->
  exists a, xmd_init C inj junk = Some a /\
    h2f_run C inj b p m L count dst a (updates pieces ++ [XExtract junks buf]) =
    Some [hash_to_field H b r p m L count (pieces_octets (c_host C) pieces) dst].
Proof. exact LXmdStmt.h2f_once. Qed.
Print Assumptions C29_hash_to_field.
(** Whatever the hash and the history, every extraction returns [count] elements, each of m coordinates below p. *)
Theorem C29_coordinates_in_range :
  forall C inj b p m L count dst ops, (p <> 0)%N ->
  forall a results, h2f_run C inj b p m L count dst a ops = Some results ->
  Forall (fun us => length us = count /\ Forall (fun u => length u = m /\ Forall (fun x => (x < p)%N) u) us) results.
Proof. exact LXmdRange.h2f_run_range. Qed.
Print Assumptions C29_coordinates_in_range.
(** The BLS12-381 suites (h2f_suites.hpp:45-80): SHA-256, k = 128, L = 64, m = 1 and 2, count 1 and 2. *)
Example C29_hypotheses :
  forallb (fun mc => accepted 32 128 (snd mc * fst mc * 64) && ((snd mc * fst mc * 64) mod 32 =? 0))
    [(1, 1); (1, 2); (2, 1); (2, 2)] = true.
Proof. reflexivity. Qed.

(** C30: the n-th extraction is not that of the octets fed so far: l_i_b_str, the zero octet and DST_prime of
    each earlier extraction have been absorbed too. *)
Theorem C30_histories_partial :
  forall C inj H r b k len dst junk,
  octet_hash C inj H -> digest_octets H b -> input_block_octets C r ->
  Forall (fits 8) dst -> 16 <= length dst <= 255 -> block_ok (c_word C) (c_words C) junk ->
  accepted b k len = true ->
  forall ops, len mod b = 0 -> 0 < len -> Forall (xop_ok C len) ops ->
  (N.of_nat (8 * (r + length (absorbed (c_host C) (left_behind dst len) ops))) < 2 ^ 64)%N ->
  exists a, xmd_init C inj junk = Some a /\
    xmd_run C inj b len dst a ops =
    Some (outputs (c_host C) (fun m => expand_message_xmd H b r m dst len) (left_behind dst len) [] ops).
Proof. exact LXmdStmt.history. Qed.
Print Assumptions C30_histories_partial.
Theorem C30_h2f_histories_partial :
  forall C inj H r b k p m L count dst junk,
  octet_hash C inj H -> digest_octets H b -> input_block_octets C r ->
  Forall (fits 8) dst -> 16 <= length dst <= 255 -> block_ok (c_word C) (c_words C) junk ->
  accepted b k (count * m * L) = true ->
  forall ops, (count * m * L) mod b = 0 -> 0 < count * m * L -> Forall (xop_ok C (count * m * L)) ops ->
  (N.of_nat (8 * (r + length (absorbed (c_host C) (left_behind dst (count * m * L)) ops))) < 2 ^ 64)%N ->
  exists a, xmd_init C inj junk = Some a /\
    h2f_run C inj b p m L count dst a ops =
    Some (outputs (c_host C) (fun msg => hash_to_field H b r p m L count msg dst)
            (left_behind dst (count * m * L)) [] ops).
Proof. exact LXmdStmt.h2f_history. Qed.
Print Assumptions C30_h2f_histories_partial.

(** Refutation of the full property, with SHA3-256 and one field element: two extractions in a row differ. *)
Theorem C30_repeatable_refuted :
  let C := sha3 (inj_run BOLB 64 17) 256 in
  let inj := inj_run BOBB 64 17 in
  let junk := repeat 0%N 17 in
  exists a u v, xmd_init C inj junk = Some a /\
    h2f_run C inj 32 0x73eda753299d7d483339d80809a1d80553bda402fffe5bfeffffffff00000001 1 64 1 (repeat 65%N 16) a
      [XUpdate 8 [97; 98; 99]%N; XExtract (fun _ => junk) (repeat 0%N 64); XExtract (fun _ => junk) (repeat 0%N 64)] =
    Some [u; v] /\ u <> v.
Proof. exact LXmdStmt.not_repeatable. Qed.
Print Assumptions C30_repeatable_refuted.

(** C63: what is hashed first determines the message, the tag and the length... *)
Theorem C63_encoding_injective :
  forall r msg msg' dst dst' len len', length dst <= 255 -> length dst' <= 255 ->
  (N.of_nat len < 0x10000)%N -> (N.of_nat len' < 0x10000)%N ->
  msg_prime r msg dst len = msg_prime r msg' dst' len' -> msg = msg' /\ dst = dst' /\ len = len'.
Proof. exact LXmdSep.msg_prime_inj. Qed.
Print Assumptions C63_encoding_injective.
(** ... so outputs that agree on their first [b] octets, for different messages, tags or lengths, come from one
    of two explicit collisions of the hash. *)
Theorem C63_domain_separation :
  forall C inj H r b k len dst msg u k' len' dst' msg' u',
  octet_hash C inj H -> digest_octets H b -> input_block_octets C r ->
  Forall (fits 8) dst -> 16 <= length dst <= 255 -> accepted b k len = true -> len mod b = 0 -> 0 < len ->
  Forall (fits 8) dst' -> 16 <= length dst' <= 255 -> accepted b k' len' = true -> len' mod b = 0 -> 0 < len' ->
  let x0 := msg_prime r msg dst len in
  let x0' := msg_prime r msg' dst' len' in
  let x1 := H x0 ++ I2OSP 1 1 ++ DST_prime dst in
  let x1' := H x0' ++ I2OSP 1 1 ++ DST_prime dst' in
  (N.of_nat (8 * length x0) < 2 ^ 64)%N -> (N.of_nat (8 * length x0') < 2 ^ 64)%N ->
  expands C inj b len dst msg u -> expands C inj b len' dst' msg' u' ->
  (msg, dst, len) <> (msg', dst', len') -> firstn b u = firstn b u' ->
  x0 <> x0' /\ H x0 = H x0' \/ x1 <> x1' /\ H x1 = H x1'.
Proof. exact LXmdSep.separation. Qed.
Print Assumptions C63_domain_separation.
(** Such outputs exist: with a compression function that ignores the message. *)
Example C63_hypotheses :
  let inj := inj_keep LOBB 32 16 in
  let C := PMD.md LOBB 32 16 64 5 (repeat 1%N 5) (fun s _ => s) inj in
  let junk := repeat 7%N 16 in
  let run dst xs := match xmd_init C inj junk with
                    | Some a => xmd_run C inj 20 40 dst a (updates [(8, xs)] ++ [XExtract (fun _ => junk) (repeat 0%N 40)])
                    | None => None end in
  accepted 20 80 40 = true /\ input_block_octets C 64 /\ run (repeat 65%N 16) [1; 2]%N <> None /\
  run (repeat 65%N 16) [1; 2]%N = run (repeat 66%N 17) [3]%N.
Proof. exact LXmdSep.pair_exists. Qed.
