(** * Properties C44, C52, C66 and C67: CRC

    Specification: SpecCrc.v.  Model: MCrc.v.  boost::crc_optimal is external; [computes] (below)
    is what is assumed of it. *)
From Coq Require Import NArith Arith List Bool.
From Verif Require Import SpecStream SpecCrc MCrc.
From Verif Require LCrc LCrc2.
Import ListNotations.

(** Assumed of boost::crc_optimal: process_bytes is process_byte on each octet in turn, and the
    checksum after any octets is their CRC. *)
Definition computes (cc : crc_computer) (P : crc_parameters) : Prop :=
  (forall s os, cc_bytes cc s os = fold_left (cc_byte cc) os s) /\
  (forall os, Forall (fits 8) os -> cc_checksum cc (fold_left (cc_byte cc) os (cc_reset cc)) = CRC P os).

(** What a history must return: each extraction gives the CRC of everything fed before it, in
    order, however it was fed. *)
Definition octets_of (o : crc_op) : list N :=
  match o with Range _ xs => xs | Value x => [x] | Block _ xs => xs | Extract => [] end.
Fixpoint expected (P : crc_parameters) (os : list N) (ops : list crc_op) : list (list N) :=
  match ops with
  | [] => []
  | Extract :: r => CRC_octets P os :: expected P os r
  | o :: r => expected P (os ++ octets_of o) r
  end.

Theorem C44_crc_history : forall cc P ops,
  crc_ok P -> computes cc P -> Forall (fun o => Forall (fits 8) (octets_of o)) ops ->
  crc_run cc (W P) (crc_init cc) ops = Some (expected P [] ops).
Proof. exact LCrc.history. Qed.
Print Assumptions C44_crc_history.

(** C44: one range, of any iterator category. *)
Theorem C44_crc_digest : forall cc P it os,
  crc_ok P -> computes cc P -> Forall (fits 8) os ->
  exists s, stream_range cc it (crc_init cc) os = Some s /\
    crc_result cc (W P) s = rev (octets_le (W P / 8) (CRC P os)).
Proof. exact LCrc.digest_range. Qed.
Print Assumptions C44_crc_digest.

(** end_message returns the digest and starts over. *)
Theorem C44_end_message : forall cc P os,
  crc_ok P -> computes cc P -> Forall (fits 8) os ->
  end_message cc (W P) (update_n cc Pointer (crc_init cc) os) = (CRC_octets P os, crc_init cc).
Proof. exact LCrc.end_message_ok. Qed.
Print Assumptions C44_end_message.

Example C44_hypotheses : crc_ok CRC32_PNG /\ exists cc, computes cc CRC32_PNG.
Proof. exact LCrc.hypotheses. Qed.
Example C44_model_run : exists cc, computes cc CRC32_PNG /\
  crc_run cc 32 (crc_init cc) [Extract; Range Weaker [97]%N; Value 98%N; Extract; Range Pointer [99]%N; Extract] =
  Some [[0; 0; 0; 0]; [0x9e; 0x83; 0x48; 0x6d]; [0x35; 0x24; 0x41; 0xc2]]%N.
Proof. exact LCrc.model_run. Qed.

(** C52: an odd polynomial detects every burst: two messages whose bits (in the order the CRC takes
    them) differ inside a window no wider than the register have different digests. *)
Theorem C52_crc_detects_bursts : forall cc P it it' os os' before burst burst' after,
  crc_ok P -> N.odd (poly P) = true -> computes cc P -> Forall (fits 8) os -> Forall (fits 8) os' ->
  message_bits P os = before ++ burst ++ after ->
  message_bits P os' = before ++ burst' ++ after ->
  length burst = length burst' -> length burst <= W P -> burst <> burst' ->
  exists s s', stream_range cc it (crc_init cc) os = Some s /\ stream_range cc it' (crc_init cc) os' = Some s' /\
    crc_result cc (W P) s <> crc_result cc (W P) s'.
Proof. exact LCrc.burst_digests. Qed.
Print Assumptions C52_crc_detects_bursts.

Example C52_hypotheses : N.odd (poly CRC32_PNG) = true /\
  message_bits CRC32_PNG [97; 98; 99]%N = [true; false] ++ [false; false; false; true; true; false; false; true] ++
    skipn 10 (message_bits CRC32_PNG [97; 98; 99]%N) /\
  message_bits CRC32_PNG [129; 99; 99]%N = [true; false] ++ [false; false; false; false; false; true; true; true] ++
    skipn 10 (message_bits CRC32_PNG [97; 98; 99]%N).
Proof. repeat split. Qed.

(** C66: the PNG CRC-32 detects every pair of flipped bits except pairs whose distance is a multiple of 2^32 - 1 bits,
    and misses all of those. *)
Theorem C66_crc32_two_bits : forall cc it it' os os' before b middle c after,
  computes cc CRC32_PNG -> Forall (fits 8) os -> Forall (fits 8) os' ->
  message_bits CRC32_PNG os = before ++ b :: middle ++ c :: after ->
  message_bits CRC32_PNG os' = before ++ negb b :: middle ++ negb c :: after ->
  exists s s', stream_range cc it (crc_init cc) os = Some s /\ stream_range cc it' (crc_init cc) os' = Some s' /\
    (crc_result cc 32 s = crc_result cc 32 s' <-> exists k, (N.of_nat (S (length middle)) = k * (2 ^ 32 - 1))%N).
Proof. exact LCrc2.png_two_bits_digests. Qed.
Print Assumptions C66_crc32_two_bits.
Example C66_hypotheses :
  message_bits CRC32_PNG [97; 98; 99]%N = [] ++ true :: firstn 15 (skipn 1 (message_bits CRC32_PNG [97; 98; 99]%N)) ++ true ::
    skipn 17 (message_bits CRC32_PNG [97; 98; 99]%N) /\
  message_bits CRC32_PNG [96; 98; 98]%N = [] ++ false :: firstn 15 (skipn 1 (message_bits CRC32_PNG [97; 98; 99]%N)) ++ false ::
    skipn 17 (message_bits CRC32_PNG [97; 98; 99]%N).
Proof. split; reflexivity. Qed.

(** C67: every CRC is affine: the digest of the exclusive or of three messages of one length is the exclusive or of
    their digests. *)
Theorem C67_crc_affine : forall cc P it a b c,
  crc_ok P -> computes cc P -> Forall (fits 8) a -> Forall (fits 8) b -> Forall (fits 8) c ->
  length a = length b -> length a = length c ->
  exists s sa sb sc, stream_range cc it (crc_init cc) (xor3 a b c) = Some s /\ stream_range cc it (crc_init cc) a = Some sa /\
    stream_range cc it (crc_init cc) b = Some sb /\ stream_range cc it (crc_init cc) c = Some sc /\
    crc_result cc (W P) s = xor3 (crc_result cc (W P) sa) (crc_result cc (W P) sb) (crc_result cc (W P) sc).
Proof. exact LCrc2.affine. Qed.
Print Assumptions C67_crc_affine.
Example C67_hypotheses : crc_ok CRC32_PNG /\ xor3 [1; 2]%N [4; 8]%N [16; 32]%N = [21; 42]%N.
Proof. split; [exact (proj1 LCrc.hypotheses)|reflexivity]. Qed.
