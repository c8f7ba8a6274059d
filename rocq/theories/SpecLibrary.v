(** * Specification: every block hash of the library, by name, with the function it is published as

    The hash typedefs of hash/*.hpp, each with its standard.  Of the code outside the repository: [cipher] is the
    block cipher of crypto3-block, [perm] an implementation of Keccak-f[1600] (C15, C17, C18 for those of the library), and
    [inj], [injb] the injector of MPack.v. *)
From Coq Require Import NArith Arith List.
From Verif Require Import SpecStream SpecOctets SpecStore MPack MAcc.
From Verif Require SpecSha SpecRipemd SpecTiger SpecBlake2b SpecKeccak SpecSponge MSha MRipemd MTiger MKeccak MBlake2b PSha.
Import ListNotations.

Inductive library_hash (inj : injector) : construction -> (list N -> list N) -> Prop :=
| L_md4 cipher : PSha.cipher_computes cipher 32 4 SpecSha.md4_steps -> injector_contract LOBB 32 16 inj ->
    library_hash inj (MSha.md4 cipher inj) SpecSha.MD4
| L_md5 cipher : PSha.cipher_computes cipher 32 4 SpecSha.md5_steps -> injector_contract LOBB 32 16 inj ->
    library_hash inj (MSha.md5 cipher inj) SpecSha.MD5
| L_sha cipher : PSha.cipher_computes cipher 32 5 SpecSha.sha0_steps -> injector_contract BOBB 32 16 inj ->
    library_hash inj (MSha.sha cipher inj) SpecSha.SHA0
| L_sha1 cipher : PSha.cipher_computes cipher 32 5 SpecSha.sha1_steps -> injector_contract BOBB 32 16 inj ->
    library_hash inj (MSha.sha1 cipher inj) SpecSha.SHA1
| L_sha224 cipher : PSha.cipher_computes cipher 32 8 SpecSha.sha256_steps -> injector_contract BOBB 32 16 inj ->
    library_hash inj (MSha.sha2_224 cipher inj) SpecSha.SHA224
| L_sha256 cipher : PSha.cipher_computes cipher 32 8 SpecSha.sha256_steps -> injector_contract BOBB 32 16 inj ->
    library_hash inj (MSha.sha2_256 cipher inj) SpecSha.SHA256
| L_sha384 cipher : PSha.cipher_computes cipher 64 8 SpecSha.sha512_steps -> injector_contract BOBB 64 16 inj ->
    library_hash inj (MSha.sha2_384 cipher inj) SpecSha.SHA384
| L_sha512 cipher : PSha.cipher_computes cipher 64 8 SpecSha.sha512_steps -> injector_contract BOBB 64 16 inj ->
    library_hash inj (MSha.sha2_512 cipher inj) SpecSha.SHA512
| L_ripemd128 : injector_contract LOBB 32 16 inj -> library_hash inj (MRipemd.ripemd128 inj) SpecRipemd.RIPEMD128
| L_ripemd160 : injector_contract LOBB 32 16 inj -> library_hash inj (MRipemd.ripemd160 inj) SpecRipemd.RIPEMD160
| L_ripemd256 : injector_contract LOBB 32 16 inj -> library_hash inj (MRipemd.ripemd256 inj) SpecRipemd.RIPEMD256
| L_ripemd320 : injector_contract LOBB 32 16 inj -> library_hash inj (MRipemd.ripemd320 inj) SpecRipemd.RIPEMD320
(* tiger<192, passes>, passes >= 3 *)
| L_tiger passes C : 3 <= passes -> MTiger.tiger 192 passes inj = Some C -> injector_contract LOBB 64 8 inj ->
    library_hash inj C (SpecTiger.TIGER passes)
(* sha3<d> and keccak_1600<d> *)
| L_sha3 d injb : In d [224; 256; 384; 512] -> injector_contract BOLB 64 (MKeccak.keccak_words d) injb ->
    injector_contract BOBB 64 (MKeccak.keccak_words d) inj ->
    library_hash inj (MKeccak.sha3 injb d) (SpecKeccak.SHA3_octets d)
| L_keccak d injb perm : In d [224; 256; 384; 512] -> injector_contract BOLB 64 (MKeccak.keccak_words d) injb ->
    (forall st, block_ok 64 25 st -> perm st = MKeccak.permute st) ->
    injector_contract BOBB 64 (MKeccak.keccak_words d) inj ->
    library_hash inj (MKeccak.keccak_1600 perm injb d) (SpecKeccak.Keccak_octets d)
(* blake2b<bits>: RFC 7693 unless the length is a positive multiple of 128 octets (C21) *)
| L_blake2b bits injb : bits mod 8 = 0 /\ 0 < bits <= 512 -> injector_contract LOBB 64 16 injb ->
    injector_contract LOBB 64 16 inj ->
    library_hash inj (MBlake2b.blake2b injb bits) (SpecBlake2b.BLAKE2b_observed (bits / 8)).

(** ** Programs that use several hashes at once

    The specification remembers, for each accumulator, which hash it is of and the message fed to it. *)
Section Mixed.
Context {K J E : Type} (H : K -> list N -> list N) (value : nat * list N -> list N).
Fixpoint digests_of (slots : nat -> option (K * list N)) (cs : list (call (K * J) (nat * list N) E)) :
    option (list (nat * list N)) :=
  match cs with
  | [] => Some []
  | Create i (k, _) :: cs => digests_of (put i (k, []) slots) cs
  | Update i u :: cs =>
      match slots i with None => None | Some (k, m) => digests_of (put i (k, m ++ value u) slots) cs end
  | Extract i _ :: cs =>
      match slots i with None => None | Some (k, m) => option_map (cons (i, H k m)) (digests_of slots cs) end
  | Copy i j :: cs => match slots i with None => None | Some km => digests_of (put j km slots) cs end
  end.
(** The octets fed in a program, to all accumulators together. *)
Definition all_octets (cs : list (call (K * J) (nat * list N) E)) : list N :=
  flat_map (fun c => match c with Update _ u => value u | _ => [] end) cs.
End Mixed.
