(** * Property C87: Merkle-Damgard objects return a definite function in every program

    C84 is about programs that keep its rules (reset after digest, counts that fit).  Here no rule is kept: digest twice,
    digest and go on, wrong counts, states saved after digest.  Specification: SpecAnyUse.v ([returns]: what is returned, in
    octets, blocks and the published compression function) over SpecCollide.v (the published hashes).  Model: MObjects.v over
    MObject.v. *)
From Coq Require Import NArith Arith List Bool.
From Verif Require Import SpecStream SpecWords SpecMD SpecMDOctets SpecStore SpecRipemd MPack MAcc SpecCollide SpecObject MObject MObjects SpecAnyUse.
From Verif Require MSha MRipemd MTiger PSha LAnyUse LAnyUseStmt.
Import ListNotations.

(** Every program: any objects, calls in any order, any blocks, any counts that are whole octets. *)
Theorem C87_every_program : forall inj o h cs, object_of inj o h ->
  injector_contract (if big h then BOBB else LOBB) (8 * word h) (block h) inj ->
  Forall (octet_arguments (8 * word h) (block h)) cs ->
  object_calls o (fun s => s) nothing cs = returns h nothing cs.
Proof. intros inj o h cs HO HI. exact (LAnyUse.every_program inj o h HO HI cs). Qed.
Print Assumptions C87_every_program.

(** The objects are those of the library's hashes. *)
Theorem C87_objects : forall inj o h, object_of inj o h -> implements inj (ob_class o) h.
Proof.
  intros inj o h H; destruct H as [cipher HC|cipher HC|cipher HC|cipher HC|cipher HC|cipher HC|cipher HC|cipher HC| | | | |p iv HT].
  - exact (I_md4 inj cipher HC).
  - exact (I_md5 inj cipher HC).
  - exact (I_sha inj cipher HC).
  - exact (I_sha1 inj cipher HC).
  - exact (I_sha224 inj cipher HC).
  - exact (I_sha256 inj cipher HC).
  - exact (I_sha384 inj cipher HC).
  - exact (I_sha512 inj cipher HC).
  - exact (I_ripemd128 inj).
  - exact (I_ripemd160 inj).
  - exact (I_ripemd256 inj).
  - exact (I_ripemd320 inj).
  - apply I_tiger. unfold MTiger.tiger. rewrite HT. reflexivity.
Qed.
Print Assumptions C87_objects.

(** A forgotten reset: the second message is hashed with the first one's last chaining value as initial value. *)
Theorem C87_forgotten_reset : forall inj o h i m1 m2, object_of inj o h ->
  injector_contract (if big h then BOBB else LOBB) (8 * word h) (block h) inj ->
  Forall (fits 8) m1 -> Forall (fits 8) m2 -> (N.of_nat (8 * length m1) < 2 ^ 64)%N -> (N.of_nat (8 * length m2) < 2 ^ 64)%N ->
  object_calls o (fun s => s) nothing (New i :: hash_calls h i 0 m1 ++ hash_calls h i 0 m2) =
  Some [(i, output h (final_state h m1)); (i, output h (fold_left (compress h) (message_blocks h m2) (final_state h m1)))].
Proof. exact LAnyUseStmt.forgotten_reset. Qed.
Print Assumptions C87_forgotten_reset.

(** digest in the middle: a caller who goes on counting gets the published digest of the first message as digest padded it,
    followed by the second, not of the two messages. *)
Theorem C87_digest_and_go_on : forall inj o h i m1 m2, object_of inj o h ->
  injector_contract (if big h then BOBB else LOBB) (8 * word h) (block h) inj ->
  let p := padded (big h) (word h) (block h) (len_field h) (mark h) m1 in
  Forall (fits 8) m1 -> Forall (fits 8) m2 -> m2 <> [] -> (N.of_nat (8 * length (p ++ m2)) < 2 ^ 64)%N ->
  object_calls o (fun s => s) nothing (New i :: hash_calls h i 0 m1 ++ hash_calls h i (length p) m2) =
  Some [(i, output h (final_state h m1)); (i, output h (final_state h (p ++ m2)))].
Proof. exact LAnyUseStmt.counted_on. Qed.
Print Assumptions C87_digest_and_go_on.

(** Non-vacuity: a program no rule of C84 allows meets the hypotheses: digest twice, a saved state after digest, a count
    that does not fit the blocks.  Its result is not that of fresh objects. *)
Definition rmd128 := rmd (firstn 4 IV5) RIPEMD128_compress 16.
Definition careless : list ocall :=
  [New 0; Finish 0 (repeat 7%N 16) 0; Finish 0 (repeat 7%N 16) 0; Clone 0 1; Process 1 (repeat 1%N 16) 3; Finish 1 (repeat 0%N 16) 80].
Example C87_example : forall inj, injector_contract LOBB 32 16 inj ->
  exists o, object_of inj o rmd128 /\ Forall (octet_arguments (8 * word rmd128) (block rmd128)) careless /\
  exists a b c, object_calls o (fun s => s) nothing careless = Some [(0, a); (0, b); (1, c)] /\ a <> b /\ length a = 16 /\ length c = 16.
Proof.
  intros inj HI. exists (ripemd_object 4 MRipemd.ripemd128_iv MRipemd.ripemd128_process_block inj).
  assert (HO : object_of inj (ripemd_object 4 MRipemd.ripemd128_iv MRipemd.ripemd128_process_block inj) rmd128) by constructor.
  assert (HA : Forall (octet_arguments (8 * word rmd128) (block rmd128)) careless).
  { repeat constructor. }
  split; [exact HO|]. split; [exact HA|]. rewrite (C87_every_program inj _ rmd128 careless HO HI HA).
  vm_compute. do 3 eexists. split; [reflexivity|]. split; [intros X; discriminate X|]. split; reflexivity.
Qed.
Example C87_example_messages : exists m1 m2 : list N, Forall (fits 8) m1 /\ Forall (fits 8) m2 /\ m2 <> [] /\
  length (padded false 4 16 8 0x80 m1 ++ m2) = 193 /\ length (hash_calls rmd128 0 128 m2) = 2.
Proof. exists (repeat 9%N 56), (repeat 200%N 65). repeat split; try discriminate; repeat constructor. Qed.
