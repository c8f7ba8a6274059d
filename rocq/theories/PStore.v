(** * Property C75: accumulators are values

    Specification: SpecStore.v (programs with several accumulators), SpecOctetHash.v, SpecXmd.v,
    SpecXmdHist.v, SpecPedersen.v.  Model: MStore.v.  The hashes that meet [octet_hash]: C27_sponge_hashes,
    C27_md_hashes, C27_blake2b (PXmd.v) and Tiger, below. *)
From Coq Require Import NArith ZArith Arith List.
From Verif Require Import SpecStream MPack MAcc SpecOctets SpecOctetHash SpecXmd MXmd SpecXmdHist.
From Verif Require Import SpecPedersen MPedersen SpecStore MStore.
From Verif Require MTiger SpecTiger LStore SpecCrc MCrc LCrc PCrc.
Import ListNotations.

(** Whatever a program does with its accumulators, and in whatever order, each digest is the one of the
    octets fed to that accumulator and, before it was copied, to the one it was copied from. *)
Theorem C75_programs : forall C inj H, octet_hash C inj H ->
  forall cs : list (call (list N) (nat * list N) unit),
  Forall (fun c => match c with
    | Create _ junk => block_ok (c_word C) (c_words C) junk
    | Update _ u => piece_ok C u
    | _ => True end) cs ->
  let value := fun u => range_octets (c_host C) (fst u) (snd u) in
  Forall (fun m => (N.of_nat (8 * length m) < 2 ^ 64)%N) (messages value [] nothing cs) ->
  block_calls C inj nothing cs = reports value [] H nothing cs.
Proof. exact LStore.block_store. Qed.
Print Assumptions C75_programs.

Theorem C75_tiger : forall k p inj C,
  MTiger.tiger (64 * (3 + k)) (3 + p) inj = Some C -> injector_contract LOBB 64 8 inj ->
  octet_hash C inj (fun os => SpecTiger.TIGER (3 + p) os ++ repeat 0%N (8 * k)).
Proof. exact LStore.tiger_octet_hash. Qed.
Print Assumptions C75_tiger.

(** A program with a copy, and what it reports. *)
Example C75_program_example : forall (H : list N -> list N) (j : list N),
  let value := fun u : nat * list N => range_octets host_order (fst u) (snd u) in
  let cs := [Create 0 j; Update 0 (8, [1; 2]%N); Copy 0 1; Update 1 (16, [0x0403]%N); Extract 0 tt; Update 0 (8, [9]%N);
             Extract 1 tt; Extract 0 tt] in
  reports value [] H nothing cs = Some [(0, H [1; 2]%N); (1, H [1; 2; 3; 4]%N); (0, H [1; 2; 9]%N)] /\
  Forall (fun m => (N.of_nat (8 * length m) < 2 ^ 64)%N) (messages value [] nothing cs).
Proof. exact LStore.program_example. Qed.

(** The same for hash_to_field, where an extraction adds octets to the message of its own accumulator
    (C30_repeatable_refuted), and to no other. *)
Theorem C75_programs_hash_to_field : forall C inj H r b k p m L count dst,
  octet_hash C inj H -> digest_octets H b -> input_block_octets C r ->
  Forall (fits 8) dst -> 16 <= length dst <= 255 -> accepted b k (count * m * L) = true ->
  (count * m * L) mod b = 0 -> 0 < count * m * L -> (N.of_nat (8 * r) < 2 ^ 64)%N ->
  forall cs : list (call (list N) (nat * list N) ((nat -> list N) * list N)),
  Forall (fun c => match c with
    | Create _ junk => block_ok (c_word C) (c_words C) junk
    | Update _ u => piece_ok C u
    | Extract _ e => (forall i, block_ok (c_word C) (c_words C) (fst e i)) /\ length (snd e) = count * m * L
    | Copy _ _ => True end) cs ->
  let value := fun u => range_octets (c_host C) (fst u) (snd u) in
  let left := left_behind dst (count * m * L) in
  Forall (fun msg => (N.of_nat (8 * (r + length msg)) < 2 ^ 64)%N) (messages value left nothing cs) ->
  h2f_calls C inj b p m L count dst nothing cs =
  reports value left (fun msg => hash_to_field H b r p m L count msg dst) nothing cs.
Proof. exact LStore.h2f_store. Qed.
Print Assumptions C75_programs_hash_to_field.

(** So a program that takes each digest from a copy of its accumulator gets RFC 9380's value for everything
    fed so far, every time... *)
Theorem C75_digests_from_copies_hash_to_field : forall C inj H r b k p m L count dst,
  octet_hash C inj H -> digest_octets H b -> input_block_octets C r ->
  Forall (fits 8) dst -> 16 <= length dst <= 255 -> accepted b k (count * m * L) = true ->
  (count * m * L) mod b = 0 -> 0 < count * m * L -> (N.of_nat (8 * r) < 2 ^ 64)%N ->
  forall junk (ss : list (step (nat * list N) ((nat -> list N) * list N))),
  block_ok (c_word C) (c_words C) junk ->
  Forall (fun s => match s with
    | Feed u => piece_ok C u
    | Digest e => (forall i, block_ok (c_word C) (c_words C) (fst e i)) /\ length (snd e) = count * m * L end) ss ->
  let value := fun u => range_octets (c_host C) (fst u) (snd u) in
  (N.of_nat (8 * (r + length (fed_values value ss ++ left_behind dst (count * m * L)))) < 2 ^ 64)%N ->
  h2f_calls C inj b p m L count dst nothing (from_copies junk ss) =
  Some (map (fun d => (1, d)) (digests value (fun msg => hash_to_field H b r p m L count msg dst) [] ss)).
Proof. exact LStore.h2f_copies. Qed.
Print Assumptions C75_digests_from_copies_hash_to_field.

(** ... and likewise the Zcash value for the Pedersen hash, whose own extractions are not repeatable either
    (C30_pedersen_repeatable_refuted). *)
Theorem C75_digests_from_copies_pedersen :
  forall (G : Type) (zero : G) (add : G -> G -> G) (mul : Z -> G -> G) (base : N -> G) (p : Z) (width c : nat),
  group_laws zero add -> (0 < p)%Z ->
  (forall i z, mul (z mod p)%Z (base i) = mul z (base i)) ->
  2 <= c -> (16 ^ (Z.of_nat c - 1) < 2 ^ Z.of_nat width)%Z ->
  forall ss : list (step (list bool) unit),
  let M := fed_values (fun bits => bits) ss in
  (N.of_nat (length (pad3 M)) < 2 ^ 64)%N /\ (N.of_nat (length (pad3 M)) <= N.of_nat (3 * c) * 2 ^ 32)%N ->
  pedersen_calls zero add mul base p width (N.of_nat c) nothing (from_copies tt ss) =
  Some (map (fun d => (1, d))
    (digests (fun bits => bits) (pedersen_to_point zero add mul (fun i => base (N.of_nat i)) c) [] ss)).
Proof. exact LStore.ped_copies. Qed.
Print Assumptions C75_digests_from_copies_pedersen.

(** Messages of any length below the bound, e.g. 5 bits, a digest, 2 more bits, a digest. *)
Example C75_pedersen_hypotheses :
  let ss := [Feed [true; false; true; true; false]; Digest tt; Feed [true; true]; Digest tt] in
  let M := fed_values (fun bits => bits) ss in
  ((N.of_nat (length (pad3 M)) < 2 ^ 64)%N /\ (N.of_nat (length (pad3 M)) <= N.of_nat (3 * 63) * 2 ^ 32)%N) /\
  digests (fun bits => bits) (fun m => m) [] ss =
  [[true; false; true; true; false]; [true; false; true; true; false; true; true]].
Proof. split; [split; [reflexivity|discriminate]|reflexivity]. Qed.

(** The same of CRCs, with ranges of any iterator category; here messages of any length. *)
Theorem C75_programs_crc : forall cc P, SpecCrc.crc_ok P -> PCrc.computes cc P ->
  forall cs : list (call unit (MCrc.iterator * list N) unit),
  Forall (fun c => match c with Update _ u => Forall (fits 8) (snd u) | _ => True end) cs ->
  crc_calls cc (SpecCrc.W P) nothing cs = reports (fun u => snd u) [] (SpecCrc.CRC_octets P) nothing cs.
Proof. exact (fun cc P HP HC cs => LStore.crc_store cc P cs HP HC). Qed.
Print Assumptions C75_programs_crc.
Example C75_crc_program : exists cc, PCrc.computes cc SpecCrc.CRC32_PNG /\
  crc_calls cc 32 nothing [Create 0 tt; Update 0 (MCrc.Pointer, [97]%N); Copy 0 1; Update 0 (MCrc.Weaker, [98; 99]%N); Extract 1 tt; Extract 0 tt]
  = Some [(1, [0xe8; 0xb7; 0xbe; 0x43]%N); (0, [0x35; 0x24; 0x41; 0xc2]%N)].
Proof. exists (LCrc.register_computer SpecCrc.CRC32_PNG). split; [apply LCrc.register_computes|vm_compute; reflexivity]. Qed.
