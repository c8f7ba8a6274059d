(** * Property C76: a message followed by its checksum

    Specification: SpecCrc.v.  Model: MCrc.v. *)
From Coq Require Import NArith Arith List Bool.
From Verif Require Import SpecStream SpecCrc MCrc.
From Verif Require LCrc LCrcRes PCrc.
Import ListNotations.

(** C76: there is one digest that a message followed by W / 8 octets has exactly when those octets are the checksum of
    the message, in the order in which the CRC takes bits: the digest itself, or its octets in the opposite order if the
    CRC is reflected. *)
Theorem C76_checksum_appended : forall P,
  crc_ok P -> N.odd (poly P) = true -> reflect_in P = reflect_rem P ->
  exists residue, forall cc it it' m t, PCrc.computes cc P ->
  Forall (fits 8) m -> Forall (fits 8) t -> length t = W P / 8 ->
  exists s s', stream_range cc it (crc_init cc) m = Some s /\ stream_range cc it' (crc_init cc) (m ++ t) = Some s' /\
    (crc_result cc (W P) s' = residue <-> t = if reflect_in P then rev (crc_result cc (W P) s) else crc_result cc (W P) s).
Proof. exact (fun P a b c => ex_intro _ _ (LCrcRes.appended P a b c)). Qed.
Print Assumptions C76_checksum_appended.
(** The PNG CRC-32, with the residue found in the catalogues of CRCs. *)
Theorem C76_crc32_png : forall cc it it' m t, PCrc.computes cc CRC32_PNG ->
  Forall (fits 8) m -> Forall (fits 8) t -> length t = 4 ->
  exists s s', stream_range cc it (crc_init cc) m = Some s /\ stream_range cc it' (crc_init cc) (m ++ t) = Some s' /\
    (crc_result cc 32 s' = [0x21; 0x44; 0xdf; 0x1c]%N <-> t = rev (crc_result cc 32 s)).
Proof.
  rewrite <- LCrcRes.png_residue. exact (LCrcRes.appended CRC32_PNG (proj1 LCrc.hypotheses) eq_refl eq_refl).
Qed.
Print Assumptions C76_crc32_png.
Example C76_hypotheses : crc_ok CRC32_PNG /\ N.odd (poly CRC32_PNG) = true /\ (exists cc, PCrc.computes cc CRC32_PNG) /\
  CRC_octets CRC32_PNG ([97; 98; 99] ++ rev (CRC_octets CRC32_PNG [97; 98; 99]))%N = [0x21; 0x44; 0xdf; 0x1c]%N /\
  crc_ok (Mk_crc 16 0x1021 0xffff 0 false false).
Proof.
  split; [exact (proj1 LCrc.hypotheses)|]. split; [reflexivity|]. split; [exact (proj2 LCrc.hypotheses)|].
  split; [vm_compute; reflexivity|]. repeat split; repeat constructor.
Qed.
