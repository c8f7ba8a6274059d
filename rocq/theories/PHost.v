(** * Property C72: the same program on machines of either byte order

    Specification: SpecHost.v, SpecSha.v.  Model: MAcc.v, MPack.v. *)
From Coq Require Import NArith Arith List Bool.
From Verif Require Import SpecStream MPack MAcc MConstr SpecSha SpecHost.
From Verif Require MSha LHost PSha.
Import ListNotations.

(** C72: a history of calls that only feeds octets returns the same digests on a big-endian machine as on a
    little-endian one, for every construction, in every order of updates and extractions. *)
Theorem C72_octets_portable : forall C inj junk ops, Forall octet_op ops ->
  digests_on BOBB C inj junk ops = digests_on LOBB C inj junk ops.
Proof. exact LHost.octets_portable. Qed.
Print Assumptions C72_octets_portable.

(** The library's hashes in the rest of the model are the little-endian ones. *)
Theorem C72_modelled_machine : forall C inj junk ops, c_host C = host_order ->
  run_ops C inj (acc_init C junk) ops = digests_on LOBB C inj junk ops.
Proof. intros C inj junk ops H. unfold digests_on. unfold host_order in H. now rewrite <- H, LHost.on_host_self. Qed.
Print Assumptions C72_modelled_machine.

(** Wider integers, with which the property is false: SHA-256 of the 32-bit integer 1. *)
Theorem C72_wide_integers_refuted : forall cipher inj junk, PSha.cipher_computes cipher 32 8 sha256_steps ->
  injector_contract BOBB 32 16 inj -> block_ok 32 16 junk ->
  let C := MSha.sha2_256 cipher inj in
  digests_on LOBB C inj junk [OpHash 32 [1%N]; OpExtract] = Some [SHA256 [1; 0; 0; 0]%N] /\
  digests_on BOBB C inj junk [OpHash 32 [1%N]; OpExtract] = Some [SHA256 [0; 0; 0; 1]%N] /\
  SHA256 [1; 0; 0; 0]%N <> SHA256 [0; 0; 0; 1]%N.
Proof. exact LHost.sha256_differs. Qed.
Print Assumptions C72_wide_integers_refuted.

(** What holds of them: the big-endian machine returns what the little-endian one does for the integers with
    their octets reversed. *)
Theorem C72_wide_integers_partial : forall C inj junk ops, Forall whole_octet_op ops ->
  digests_on BOBB C inj junk ops = digests_on LOBB C inj junk (map swap_op ops).
Proof. exact LHost.wide_swapped. Qed.
Print Assumptions C72_wide_integers_partial.

(** Hypotheses met. *)
Example C72_sha256 : c_host (MSha.sha2_256 sha256_steps (inj_keep BOBB 32 16)) = host_order. Proof. reflexivity. Qed.
Example C72_history : Forall octet_op [OpHash 8 [1; 2; 3]%N; OpExtract; OpHash 8 [4%N]; OpExtract] /\
  Forall whole_octet_op [OpHash 16 [0x0102]%N; OpExtract; OpHash 64 [0x0102030405060708]%N; OpExtract] /\
  map swap_op [OpHash 16 [0x0102]%N; OpExtract; OpHash 64 [0x0102030405060708]%N; OpExtract] =
  [OpHash 16 [0x0201]%N; OpExtract; OpHash 64 [0x0807060504030201]%N; OpExtract].
Proof. repeat split; repeat constructor. Qed.
