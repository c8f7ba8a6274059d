(** * Property C80: every hash of the library, in any program, is the function it is published as

    Specification: SpecLibrary.v (the hashes by name, and programs that use several of them), SpecOctetHash.v,
    SpecHash.v (the entry points).  Model: the hashes (MSha.v, MRipemd.v, MTiger.v, MKeccak.v, MBlake2b.v) over MAcc.v,
    MHash.v and MStore.v. *)
From Coq Require Import NArith Arith List.
From Verif Require Import SpecStream SpecOctets SpecOctetHash SpecStore MPack MAcc MMisc MHash SpecHash MStore SpecLibrary.
From Verif Require Import SpecXmd MXmd SpecXmdHist.
From Verif Require SpecSha SpecRipemd SpecTiger SpecBlake2b SpecKeccak MSha MTiger LInj LLibrary LLibXmd.
Import ListNotations.

(** However the octets are fed, extraction gives the published digest of all of them. *)
Theorem C80_published : forall inj C H, library_hash inj C H -> octet_hash C inj H.
Proof. exact LLibrary.library_octet_hash. Qed.
Print Assumptions C80_published.

(** So does every entry point, for elements of whole octets that divide the word. *)
Theorem C80_entry_points : forall inj C H digits (is_signed : bool) m first n, library_hash inj C H ->
  let vb := if is_signed then S digits else digits in
  vb mod 8 = 0 -> 0 < vb -> c_word C mod vb = 0 ->
  (forall i, i < n -> fits vb (m (first + i))) -> (N.of_nat (vb * n) < 2 ^ 64)%N ->
  every_entry_point C inj digits is_signed (block_ok (c_word C) (c_words C)) m first n
    (H (range_octets host_order vb (read_range m first n))).
Proof. exact LLibrary.library_entry. Qed.
Print Assumptions C80_entry_points.

(** A program may use accumulators of any hashes at once, feed them octets or wider values that divide the words of these
    hashes, copy and read them in any order: each digest it is given is the published digest, under the hash the
    accumulator was created for, of what was fed to that accumulator. *)
Theorem C80_programs : forall (K : Type) (C : K -> construction) (inj : K -> injector) (H : K -> list N -> list N),
  (forall k, library_hash (inj k) (C k) (H k)) ->
  forall cs : list (call (K * list N) (nat * list N) unit),
  Forall (fun c => match c with
    | Create _ (k, junk) => block_ok (c_word (C k)) (c_words (C k)) junk
    | Update _ (vb, xs) => vb mod 8 = 0 /\ 0 < vb /\ (forall k, c_word (C k) mod vb = 0) /\ Forall (fits vb) xs
    | _ => True end) cs ->
  let value := fun u => range_octets host_order (fst u) (snd u) in
  (N.of_nat (8 * length (all_octets value cs)) < 2 ^ 64)%N ->
  mixed_calls C inj nothing cs = digests_of H value nothing cs.
Proof. exact (fun K => @LLibrary.mixed_program K). Qed.
Print Assumptions C80_programs.

(** A program that computes SHA-256 and Tiger side by side and goes on with a copy of the first. *)
Definition side_C (b : bool) : construction :=
  if b then MSha.sha2_256 SpecSha.sha256_steps (inj_keep BOBB 32 16)
  else match MTiger.tiger 192 3 (inj_keep LOBB 64 8) with Some C => C | None => MSha.md5 SpecSha.md5_steps (inj_keep LOBB 32 16) end.
Definition side_inj (b : bool) : injector := if b then inj_keep BOBB 32 16 else inj_keep LOBB 64 8.
Definition side_H (b : bool) : list N -> list N := if b then SpecSha.SHA256 else SpecTiger.TIGER 3.
Definition side_by_side : list (call (bool * list N) (nat * list N) unit) :=
  [Create 0 (true, repeat 7%N 16); Create 1 (false, repeat 9%N 8); Update 0 (8, [1; 2]%N); Update 1 (8, [1; 2]%N);
   Copy 0 2; Update 2 (16, [0x0403]%N); Extract 1 tt; Extract 2 tt; Extract 0 tt].
Example C80_side_by_side :
  (forall k, library_hash (side_inj k) (side_C k) (side_H k)) /\
  Forall (fun c => match c with
    | Create _ (k, junk) => block_ok (c_word (side_C k)) (c_words (side_C k)) junk
    | Update _ (vb, xs) => vb mod 8 = 0 /\ 0 < vb /\ (forall k, c_word (side_C k) mod vb = 0) /\ Forall (fits vb) xs
    | _ => True end) side_by_side /\
  mixed_calls side_C side_inj nothing side_by_side =
  Some [(1, SpecTiger.TIGER 3 [1; 2]%N); (2, SpecSha.SHA256 [1; 2; 3; 4]%N); (0, SpecSha.SHA256 [1; 2]%N)].
Proof.
  assert (A : forall k, library_hash (side_inj k) (side_C k) (side_H k)).
  { intros [|].
    - apply L_sha256; [intros key text _ _ _ _; reflexivity|apply LInj.inj_keep_contract; [reflexivity|apply Nat.lt_0_succ]].
    - apply (L_tiger (inj_keep LOBB 64 8) 3); [apply le_n|reflexivity|apply LInj.inj_keep_contract; [reflexivity|apply Nat.lt_0_succ]]. }
  assert (B : Forall (fun c => match c with
    | Create _ (k, junk) => block_ok (c_word (side_C k)) (c_words (side_C k)) junk
    | Update _ (vb, xs) => vb mod 8 = 0 /\ 0 < vb /\ (forall k, c_word (side_C k) mod vb = 0) /\ Forall (fits vb) xs
    | _ => True end) side_by_side).
  { assert (F : forall w n x, (x < 2 ^ N.of_nat w)%N -> block_ok w n (repeat x n)).
    { intros w n x Hx. split; [apply repeat_length|]. apply Forall_forall. intros y Hy. apply repeat_spec in Hy. now subst y. }
    repeat (apply Forall_cons; [first [exact I | apply (F 32 16); reflexivity | apply (F 64 8); reflexivity |
      split; [reflexivity|split; [apply Nat.lt_0_succ|split; [intros [|]; reflexivity|repeat constructor]]]]|]). apply Forall_nil. }
  split; [exact A|]. split; [exact B|]. rewrite (C80_programs bool side_C side_inj side_H A side_by_side B); reflexivity.
Qed.

(** Digests have the size the name says, for every message, and are octets. *)
Theorem C80_digest_sizes :
  digest_octets SpecSha.MD4 16 /\ digest_octets SpecSha.MD5 16 /\ digest_octets SpecSha.SHA0 20 /\ digest_octets SpecSha.SHA1 20 /\
  digest_octets SpecSha.SHA224 28 /\ digest_octets SpecSha.SHA256 32 /\ digest_octets SpecSha.SHA384 48 /\ digest_octets SpecSha.SHA512 64 /\
  digest_octets SpecRipemd.RIPEMD128 16 /\ digest_octets SpecRipemd.RIPEMD160 20 /\ digest_octets SpecRipemd.RIPEMD256 32 /\
  digest_octets SpecRipemd.RIPEMD320 40 /\ (forall n, digest_octets (SpecTiger.TIGER n) 24) /\
  (forall d, In d [224; 256; 384; 512] -> digest_octets (SpecKeccak.SHA3_octets d) (d / 8) /\ digest_octets (SpecKeccak.Keccak_octets d) (d / 8)) /\
  (forall n, 0 < n <= 64 -> digest_octets (SpecBlake2b.BLAKE2b_observed n) n).
Proof.
  repeat (split; [first [exact LLibXmd.md4_size | exact LLibXmd.md5_size | exact LLibXmd.sha0_size | exact LLibXmd.sha1_size |
    exact LLibXmd.sha224_size | exact LLibXmd.sha256_size | exact LLibXmd.sha384_size | exact LLibXmd.sha512_size |
    exact LLibXmd.ripemd128_size | exact LLibXmd.ripemd160_size | exact LLibXmd.ripemd256_size | exact LLibXmd.ripemd320_size |
    exact LLibXmd.tiger_size | exact (fun d Hd => conj (LLibXmd.sha3_size d Hd) (LLibXmd.keccak_size d Hd))]|]).
  exact LLibXmd.blake2b_size.
Qed.
Print Assumptions C80_digest_sizes.

(** expand_message_xmd and hash_to_field over any of these hashes are those of RFC 9380 over the published function, with its
    digest and block sizes (restrictions as in C27 and C29). *)
Theorem C80_expand_message : forall inj C H k len dst junk, library_hash inj C H ->
  let b := length (H []) in let r := block_bits C / 8 in
  Forall (fits 8) dst -> 16 <= length dst <= 255 -> block_ok (c_word C) (c_words C) junk -> accepted b k len = true ->
  forall pieces junks buf, len mod b = 0 -> 0 < len -> Forall (piece_ok C) pieces ->
  (forall i, block_ok (c_word C) (c_words C) (junks i)) -> length buf = len ->
  (N.of_nat (8 * length (msg_prime r (pieces_octets host_order pieces) dst len)) < 2 ^ 64)%N ->
  exists a, xmd_init C inj junk = Some a /\
    xmd_run C inj b len dst a (updates pieces ++ [XExtract junks buf]) =
    Some [expand_message_xmd H b r (pieces_octets host_order pieces) dst len].
Proof. exact LLibXmd.library_xmd. Qed.
Print Assumptions C80_expand_message.
Theorem C80_hash_to_field : forall inj C H k p m L count dst junk, library_hash inj C H ->
  let b := length (H []) in let r := block_bits C / 8 in
  Forall (fits 8) dst -> 16 <= length dst <= 255 -> block_ok (c_word C) (c_words C) junk -> accepted b k (count * m * L) = true ->
  forall pieces junks buf, (count * m * L) mod b = 0 -> 0 < count * m * L -> Forall (piece_ok C) pieces ->
  (forall i, block_ok (c_word C) (c_words C) (junks i)) -> length buf = count * m * L ->
  (N.of_nat (8 * length (msg_prime r (pieces_octets host_order pieces) dst (count * m * L))) < 2 ^ 64)%N ->
  exists a, xmd_init C inj junk = Some a /\
    h2f_run C inj b p m L count dst a (updates pieces ++ [XExtract junks buf]) =
    Some [hash_to_field H b r p m L count (pieces_octets host_order pieces) dst].
Proof. exact LLibXmd.library_h2f. Qed.
Print Assumptions C80_hash_to_field.

(** SHA-512: digests of 64 octets and blocks of 128, 192 octets at 256 bits of security. *)
Example C80_sha512_case :
  library_hash (inj_keep BOBB 64 16) (MSha.sha2_512 SpecSha.sha512_steps (inj_keep BOBB 64 16)) SpecSha.SHA512 /\
  length (SpecSha.SHA512 []) = 64 /\ block_bits (MSha.sha2_512 SpecSha.sha512_steps (inj_keep BOBB 64 16)) / 8 = 128 /\
  accepted 64 256 192 = true /\ 192 mod 64 = 0.
Proof.
  split. { apply L_sha512; [intros key text _ _ _ _; reflexivity|apply LInj.inj_keep_contract; [reflexivity|apply Nat.lt_0_succ]]. }
  split; [exact (proj1 (proj2 (proj2 LLibXmd.sha512_size) []))|]. repeat split; reflexivity.
Qed.
