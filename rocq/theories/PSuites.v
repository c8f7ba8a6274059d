(** * Property C60: hashing to BLS12-381 with the default parameters

    Specification: SpecSuites.v (RFC 9380, sections 8.8.1 and 8.8.2), SpecH2C.v, SpecXmd.v, SpecSha.v.  Model: MSuites.v
    over MXmd.v, MSha.v, MH2C.v.  The contracts of the block cipher and of the injector are those of C58, those of the
    field's methods those of C31. *)
From Coq Require Import ZArith NArith Arith List Bool.
From Verif Require Import SpecStream MPack MAcc SpecOctets SpecOctetHash SpecXmdHist MXmd MSha SpecSha SpecPoseidon SpecH2C SpecSuites.
From Verif Require MSuites LSuites LH2CStmt PSha.
Import ListNotations.

(** The field hashes: both suites, one or two elements, the message fed in any pieces. *)
Theorem C60_hash_to_field : forall cipher inj, PSha.cipher_computes cipher 32 8 sha256_steps -> injector_contract BOBB 32 16 inj ->
  forall suite name m, In (suite, name, m) [(MSuites.h2f_suite_g1, G1_suite, 1); (MSuites.h2f_suite_g2, G2_suite, 2)] ->
  forall u count, In (u, count) [(MSuites.nonuniform_count, 1); (MSuites.uniform_count, 2)] ->
  forall junk pieces junks buf, block_ok 32 16 junk -> Forall (piece_ok (sha2_256 cipher inj)) pieces ->
  (forall i, block_ok 32 16 (junks i)) -> length buf = count * m * 64 ->
  (N.of_nat (length (pieces_octets host_order pieces)) < 2 ^ 60)%N ->
  MSuites.h2f_compiles suite u = true /\
  exists a, xmd_init (sha2_256 cipher inj) inj junk = Some a /\
    MSuites.h2f_default cipher inj suite u a (updates pieces ++ [XExtract junks buf]) =
    Some [suite_hash_to_field m count (pieces_octets host_order pieces) (test_DST name)].
Proof. exact LSuites.h2f_both. Qed.
Print Assumptions C60_hash_to_field.

(** The curve hash of G2. *)
Theorem C60_hash_to_g2 : forall cipher inj, PSha.cipher_computes cipher 32 8 sha256_steps -> injector_contract BOBB 32 16 inj ->
  forall junk pieces junks buf, block_ok 32 16 junk -> Forall (piece_ok (sha2_256 cipher inj)) pieces ->
  (forall i, block_ok 32 16 (junks i)) -> (N.of_nat (length (pieces_octets host_order pieces)) < 2 ^ 60)%N ->
  forall inversed is_square sqrt is_zero,
  inverse_of_field inversed -> decides_square is_square -> root_of_squares sqrt -> decides_zero is_zero ->
  forall (G : Type) (point : Fq2 -> Fq2 -> G) group_one gadd gmul, length buf = 256 ->
  exists a P, xmd_init (sha2_256 cipher inj) inj junk = Some a /\
    MSuites.h2c_default_g2 cipher inj inversed is_square sqrt is_zero point group_one gadd gmul a
      (updates pieces ++ [XExtract junks buf]) = Some [P] /\
    hash_to_G2 inversed point gadd gmul (pieces_octets host_order pieces) (test_DST G2_suite) P.
Proof. exact LSuites.h2c_g2. Qed.
Print Assumptions C60_hash_to_g2.

(** The curve hash of G1, for messages none of whose two intermediate points is in the isogeny's kernel.  Missing: the
    others, for which the map returns one() instead of the neutral element (C54_identity_g1_refuted). *)
Theorem C60_hash_to_g1_partial : forall cipher inj, PSha.cipher_computes cipher 32 8 sha256_steps -> injector_contract BOBB 32 16 inj ->
  forall junk pieces junks buf, block_ok 32 16 junk -> Forall (piece_ok (sha2_256 cipher inj)) pieces ->
  (forall i, block_ok 32 16 (junks i)) -> (N.of_nat (length (pieces_octets host_order pieces)) < 2 ^ 60)%N ->
  forall inversed is_square sqrt is_zero,
  inverse_of_field inversed -> decides_square is_square -> root_of_squares sqrt -> decides_zero is_zero ->
  forall (G : Type) (point : Fq -> Fq -> G) group_one e gadd gmul, length buf = 128 ->
  (forall c X Y, In [c] (suite_hash_to_field 1 2 (pieces_octets host_order pieces) (test_DST G1_suite)) ->
    sswu A1 B1 Z1 parity (fq (Z.of_N c)) X Y -> ~ In X (map fq kernel1)) ->
  exists a P, xmd_init (sha2_256 cipher inj) inj junk = Some a /\
    MSuites.h2c_default_g1 cipher inj inversed is_square sqrt is_zero point group_one gadd gmul a
      (updates pieces ++ [XExtract junks buf]) = Some [P] /\
    hash_to_G1 inversed point e gadd gmul (pieces_octets host_order pieces) (test_DST G1_suite) P.
Proof. exact LSuites.h2c_g1. Qed.
Print Assumptions C60_hash_to_g1_partial.

(** The specification leaves no choice: a message has one hash. *)
Theorem C60_unique :
  (forall (G : Type) inv (point : Fq -> Fq -> G) e gadd gmul msg DST P P',
    hash_to_G1 inv point e gadd gmul msg DST P -> hash_to_G1 inv point e gadd gmul msg DST P' -> P = P') /\
  (forall (G : Type) inv (point : Fq2 -> Fq2 -> G) gadd gmul msg DST P P',
    hash_to_G2 inv point gadd gmul msg DST P -> hash_to_G2 inv point gadd gmul msg DST P' -> P = P').
Proof. exact (conj LSuites.g1_unique LSuites.g2_unique). Qed.
Print Assumptions C60_unique.

(** Hypotheses met: the message "abc" as pieces; its elements are those of the RFC's test vector (appendix J.9.1), and
    none of their points is in the kernel.  The cipher and the contracts: C58_cipher, C01_hypotheses, C31_contracts. *)
Example C60_hypotheses : forall inj,
  Forall (piece_ok (sha2_256 sha256_steps inj)) [(8, [97]%N); (16, [0x6362]%N)] /\
  pieces_octets host_order [(8, [97]%N); (16, [0x6362]%N)] = [97; 98; 99]%N.
Proof. intros inj. repeat split; repeat constructor. Qed.
Example C60_abc :
  suite_hash_to_field 1 2 [97; 98; 99]%N (test_DST G1_suite) =
    [[0x0d921c33f2bad966478a03ca35d05719bdf92d347557ea166e5bba579eea9b83e9afa5c088573c2281410369fbd32951%N];
     [0x003574a00b109ada2f26a37a91f9d1e740dffd8d69ec0c35e1e9f4652c7dba61123e9dd2e76c655d956e2b3462611139%N]] /\
  (forall c X Y, In [c] (suite_hash_to_field 1 2 [97; 98; 99]%N (test_DST G1_suite)) ->
    sswu A1 B1 Z1 parity (fq (Z.of_N c)) X Y -> ~ In X (map fq kernel1)).
Proof. exact (conj LSuites.htf_abc LSuites.abc_off). Qed.
