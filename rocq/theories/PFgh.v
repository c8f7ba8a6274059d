(** * Property C35: find_group_hash

    Specification: SpecFgh.v.  Model: MFgh.v.  The underlying hash is any that computes [H] on octets
    (SpecOctetHash.v; instances in PXmd.v). *)
From Coq Require Import NArith Arith List Bool.
From Verif Require Import SpecStream MPack MAcc SpecOctets SpecOctetHash SpecFgh MXmd MFgh.
From Verif Require Import SpecMD MConstr SpecKeccak MKeccak SpecSponge.
From Verif Require LFghStmt.
Import ListNotations.

(** C35, the part that holds: if one of the 256 candidates decodes, and the cofactor multiple of the first
    one that does is a point other than zero, the call returns it, for the message fed in any pieces.
    Missing: the failing cases (refuted below). *)
Theorem C35_first_valid_partial :
  forall C inj H (P : Type) decode cofactor_mul is_zero well_formed junk dst pieces,
  octet_hash C inj H -> block_ok (c_word C) (c_words C) junk -> Forall (fits 8) dst -> Forall (piece_ok C) pieces ->
  (N.of_nat (8 * (length dst + length URS + length (pieces_octets (c_host C) pieces) + 1)) < 2 ^ 64)%N ->
  forall q : P,
  first_valid H decode cofactor_mul (dst ++ URS) (pieces_octets (c_host C) pieces) = Some q ->
  is_zero q = false -> well_formed q = true ->
  exists a a', fgh_init C inj junk dst = Some a /\ hash_pieces C inj a pieces = Some a' /\
  forall fuel, 256 <= fuel ->
    fgh_process C inj decode cofactor_mul is_zero well_formed fuel a' = Returned q.
Proof. exact LFghStmt.first_valid_returned. Qed.
Print Assumptions C35_first_valid_partial.

(** Refutation of termination: if no candidate decodes, the counter wraps around and the call is still
    running after any number of steps. *)
Theorem C35_terminates_refuted :
  forall C inj H (P : Type) decode (cofactor_mul : P -> P) is_zero well_formed junk dst pieces,
  octet_hash C inj H -> block_ok (c_word C) (c_words C) junk -> Forall (fits 8) dst -> Forall (piece_ok C) pieces ->
  (N.of_nat (8 * (length dst + length URS + length (pieces_octets (c_host C) pieces) + 1)) < 2 ^ 64)%N ->
  (forall i, (i < 256)%N -> candidate H decode (dst ++ URS) (pieces_octets (c_host C) pieces) i = None) ->
  exists a a', fgh_init C inj junk dst = Some a /\ hash_pieces C inj a pieces = Some a' /\
  forall fuel, fgh_process C inj decode cofactor_mul is_zero well_formed fuel a' = Running.
Proof. exact LFghStmt.runs_forever. Qed.
Print Assumptions C35_terminates_refuted.

(** A first candidate of small order stops the program, where the published FindGroupHash tries the next one. *)
Theorem C35_small_order_refuted :
  forall C inj H (P : Type) decode (cofactor_mul : P -> P) is_zero well_formed junk dst pieces,
  octet_hash C inj H -> block_ok (c_word C) (c_words C) junk -> Forall (fits 8) dst -> Forall (piece_ok C) pieces ->
  (N.of_nat (8 * (length dst + length URS + length (pieces_octets (c_host C) pieces) + 1)) < 2 ^ 64)%N ->
  forall q,
  first_valid H decode cofactor_mul (dst ++ URS) (pieces_octets (c_host C) pieces) = Some q -> is_zero q = true ->
  exists a a', fgh_init C inj junk dst = Some a /\ hash_pieces C inj a pieces = Some a' /\
  forall fuel, 256 <= fuel ->
    fgh_process C inj decode cofactor_mul is_zero well_formed fuel a' = Aborted.
Proof. exact LFghStmt.small_order. Qed.
Print Assumptions C35_small_order_refuted.
(** Where there is no candidate of small order before it, the result is the published one. *)
Theorem C35_published_value_partial :
  forall (P : Type) H decode (cofactor_mul : P -> P) is_zero prefix msg q,
  first_valid H decode cofactor_mul prefix msg = Some q -> is_zero q = false ->
  find_group_hash H decode cofactor_mul is_zero prefix msg = Some q.
Proof. exact (@LFghStmt.published). Qed.
Print Assumptions C35_published_value_partial.

(** The hypotheses are met: SHA3-256, three octets, and points that are the digests whose first octet is
    even ([decode]), of which those with first octet below 16 count as zero. *)
Example C35_hypotheses :
  let C := sha3 (inj_run BOLB 64 17) 256 in
  let inj := inj_run BOBB 64 17 in
  let H := SHA3_octets 256 in
  let decode := fun d : list N => if N.even (hd 0%N d) then Some d else None in
  octet_hash C inj H /\ block_ok (c_word C) (c_words C) (repeat 0%N 17) /\ Forall (fits 8) zcash_PH /\
  Forall (piece_ok C) [(8, [1; 2; 3]%N)] /\
  (exists q, first_valid H decode (fun q => q) (zcash_PH ++ URS) (pieces_octets host_order [(8, [1; 2; 3]%N)]) = Some q /\
     (hd 0%N q <? 16)%N = false) /\
  (forall i, candidate H (fun _ => @None N) (zcash_PH ++ URS) (pieces_octets host_order [(8, [1; 2; 3]%N)]) i = None).
Proof. exact LFghStmt.example. Qed.
(** A message whose first candidate that decodes counts as zero, and the published result is the next one. *)
Example C35_small_order_hypotheses :
  exists n q q', let H := SHA3_octets 256 in
  let decode := fun d : list N => if N.even (hd 0%N d) then Some d else None in
  let is_zero := fun d : list N => (hd 0%N d <? 16)%N in
  first_valid H decode (fun q => q) (zcash_PH ++ URS) (pieces_octets host_order [(8, [n])]) = Some q /\ is_zero q = true /\
  find_group_hash H decode (fun q => q) is_zero (zcash_PH ++ URS) (pieces_octets host_order [(8, [n])]) = Some q'.
Proof. exact LFghStmt.example_small. Qed.
(** The library's default domain separation tag is the personalisation of the specification. *)
Example C35_default_dst : default_dst = zcash_PH.
Proof. reflexivity. Qed.
