(** * Property C86: which CRCs detect every odd number of flipped bits

    Specification: SpecCrc.v, SpecCrcOdd.v.  Model: MCrc.v.  [computes] (PCrc.v) is what is assumed of
    boost::crc_optimal. *)
From Coq Require Import NArith Arith List Bool.
From Verif Require Import SpecStream SpecCrc SpecCrcOdd MCrc PCrc.
From Verif Require LCrc LCrcOdd.
Import ListNotations.

(** When the generator has an even number of terms, the digests of two messages of one length differ in an odd number of
    bits exactly when the messages do. *)
Theorem C86_even_generator_keeps_parity : forall cc P it it' os os',
  crc_ok P -> Nat.even (generator_terms P) = true -> computes cc P ->
  Forall (fits 8) os -> Forall (fits 8) os' -> length os = length os' ->
  exists s s', stream_range cc it (crc_init cc) os = Some s /\ stream_range cc it' (crc_init cc) os' = Some s' /\
    Nat.odd (flipped (crc_result cc (W P) s) (crc_result cc (W P) s')) = Nat.odd (flipped os os').
Proof. exact LCrcOdd.parity. Qed.
Print Assumptions C86_even_generator_keeps_parity.

(** So every odd number of flipped bits, wherever they are, changes the digest. *)
Theorem C86_even_generator_detects_odd : forall cc P it it' os os',
  crc_ok P -> Nat.even (generator_terms P) = true -> computes cc P ->
  Forall (fits 8) os -> Forall (fits 8) os' -> length os = length os' -> Nat.odd (flipped os os') = true ->
  exists s s', stream_range cc it (crc_init cc) os = Some s /\ stream_range cc it' (crc_init cc) os' = Some s' /\
    crc_result cc (W P) s <> crc_result cc (W P) s'.
Proof. exact LCrcOdd.odd_detected. Qed.
Print Assumptions C86_even_generator_detects_odd.

(** When it has an odd number of terms, every message longer than the digest has an odd set of bits whose flipping goes
    unnoticed. *)
Theorem C86_odd_generator_misses_odd : forall cc P it it' os,
  crc_ok P -> Nat.odd (generator_terms P) = true -> computes cc P -> Forall (fits 8) os -> W P / 8 < length os ->
  exists os', length os' = length os /\ Forall (fits 8) os' /\ Nat.odd (flipped os os') = true /\
  exists s s', stream_range cc it (crc_init cc) os = Some s /\ stream_range cc it' (crc_init cc) os' = Some s' /\
    crc_result cc (W P) s = crc_result cc (W P) s'.
Proof. exact LCrcOdd.odd_missed. Qed.
Print Assumptions C86_odd_generator_misses_odd.

(** The library's crc32_png is of the second kind. *)
Theorem C86_crc32_png_misses_odd : forall cc it it' os,
  computes cc CRC32_PNG -> Forall (fits 8) os -> 4 < length os ->
  exists os', length os' = length os /\ Forall (fits 8) os' /\ Nat.odd (flipped os os') = true /\
  exists s s', stream_range cc it (crc_init cc) os = Some s /\ stream_range cc it' (crc_init cc) os' = Some s' /\
    crc_result cc 32 s = crc_result cc 32 s'.
Proof. intros cc it it' os C F L. exact (LCrcOdd.odd_missed cc CRC32_PNG it it' os LCrc.png_ok eq_refl C F L). Qed.
Print Assumptions C86_crc32_png_misses_odd.

Example C86_even_hypotheses : crc_ok CRC16_CCITT /\ Nat.even (generator_terms CRC16_CCITT) = true /\
  (exists cc, computes cc CRC16_CCITT) /\ flipped [97; 98; 99]%N [96; 98; 111]%N = 3.
Proof.
  split; [exact LCrcOdd.ccitt_ok|]. split; [reflexivity|].
  split; [exists (LCrc.register_computer CRC16_CCITT); apply LCrc.register_computes|reflexivity].
Qed.
(** Fifteen flipped bits that the PNG CRC-32 does not see. *)
Example C86_png_twin : Nat.odd (generator_terms CRC32_PNG) = true /\
  flipped [97; 98; 99; 100; 101]%N [32; 100; 18; 191; 100]%N = 15 /\
  CRC CRC32_PNG [97; 98; 99; 100; 101]%N = CRC CRC32_PNG [32; 100; 18; 191; 100]%N.
Proof. split; [reflexivity|]. split; vm_compute; reflexivity. Qed.
