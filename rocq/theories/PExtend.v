(** * Property C71: length extension

    Specification: SpecExtend.v, SpecMDOctets.v, SpecSha.v, SpecRipemd.v, SpecTiger.v.  Model: MAcc.v, MConstr.v, MSha.v,
    MRipemd.v, MTiger.v. *)
From Coq Require Import NArith Arith List Bool.
From Verif Require Import SpecStream SpecWords MPack MAcc MConstr SpecSha SpecTigerTables SpecExtend.
From Verif Require MSha MTiger LExtend LMDStmt PSha.
Import ListNotations.
Local Open Scope N_scope.

(** C71: with MD4, MD5, SHA, SHA-1, SHA-256, SHA-512, every RIPEMD and Tiger/192, whoever knows the digest and the length of
    a message, not the message, can name octets [suf] and, for every [s], the digest of the message followed by [suf] and [s]. *)
Theorem C71_length_extension : forall inj C suf ext, full_state_hash inj C suf ext ->
  injector_contract (c_endian C) (c_word C) (c_words C) inj ->
  forall junk junk' os s, block_ok (c_word C) (c_words C) junk -> block_ok (c_word C) (c_words C) junk' ->
  Forall (fits 8) os -> Forall (fits 8) s -> N.of_nat (8 * length (os ++ suf (length os) ++ s)) < 2 ^ 64 ->
  exists d, hash_once C inj 8 junk os = Some d /\
            hash_once C inj 8 junk' (os ++ suf (length os) ++ s) = Some (ext d (length os) s).
Proof. intros inj C suf ext H HI junk junk' os s. exact (LExtend.extends_all inj C suf ext H junk junk' os s HI). Qed.
Print Assumptions C71_length_extension.

(** So a collision of two messages of one length gives one for every continuation. *)
Theorem C71_collision_extension : forall inj C suf ext, full_state_hash inj C suf ext ->
  injector_contract (c_endian C) (c_word C) (c_words C) inj ->
  forall junk junk' os os' s, block_ok (c_word C) (c_words C) junk -> block_ok (c_word C) (c_words C) junk' ->
  Forall (fits 8) os -> Forall (fits 8) os' -> Forall (fits 8) s -> length os' = length os ->
  N.of_nat (8 * length (os ++ suf (length os) ++ s)) < 2 ^ 64 ->
  hash_once C inj 8 junk os = hash_once C inj 8 junk os' ->
  hash_once C inj 8 junk' (os ++ suf (length os) ++ s) = hash_once C inj 8 junk' (os' ++ suf (length os) ++ s).
Proof. exact LExtend.collisions_extend. Qed.
Print Assumptions C71_collision_extension.

(** Hypotheses met: SHA-256 with the published steps as its cipher; see C01_hypotheses (PMD.v) for the others.  A secret of
    three octets of which only the digest and the length enter the second computation; a Tiger as well. *)
Example C71_sha256 : full_state_hash (inj_keep BOBB 32 16) (MSha.sha2_256 sha256_steps (inj_keep BOBB 32 16))
  (suffix true 4 16 8 0x80) (extend true 4 16 8 0x80 sha256_compress).
Proof. apply FS_sha256. exact PSha.C58_cipher. Qed.
Example C71_sha256_run :
  let C := MSha.sha2_256 sha256_steps (inj_keep BOBB 32 16) in
  let d := SpecMDOctets.to_octets true 4 [0xba7816bf; 0x8f01cfea; 0x414140de; 0x5dae2223; 0xb00361a3; 0x96177a9c; 0xb410ff61; 0xf20015ad] in
  suffix true 4 16 8 0x80 3 = [0x80] ++ repeat 0 59 ++ [24] /\
  hash_once C (inj_keep BOBB 32 16) 8 (repeat 7 16) ([97; 98; 99] ++ suffix true 4 16 8 0x80 3 ++ [100]) =
  Some (extend true 4 16 8 0x80 sha256_compress d 3 [100]).
Proof. vm_compute. split; reflexivity. Qed.
Example C71_tiger : exists C, full_state_hash (inj_keep LOBB 64 8) C (suffix false 8 8 8 0x01)
  (extend false 8 8 8 0x01 (SpecTiger.compress tables 3)).
Proof. eexists. apply (FS_tiger _ 0). reflexivity. Qed.
