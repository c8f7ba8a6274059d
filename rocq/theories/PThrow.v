(** * Property C83: ranges whose reading fails

    Specification: SpecThrow.v (values read before the exception), SpecStore.v and SpecLibrary.v (programs), SpecHash.v
    ([written]).  Model: MThrow.v over MAcc.v, MHash.v, MXmd.v, MPedersen.v, MCrc.v. *)
From Coq Require Import NArith ZArith Arith List Bool.
From Verif Require Import SpecStream SpecOctets SpecOctetHash SpecStore MPack MAcc MMisc MHash SpecHash MStore SpecLibrary.
From Verif Require Import SpecThrow MThrow PLibrary.
From Verif Require SpecSha SpecTiger SpecCrc MCrc PCrc LThrow LStore.
Import ListNotations.

(** An update whose range throws leaves the accumulator that an update with the values read before leaves; whatever the
    construction, the width of the values and the history of the accumulator.  It throws exactly if reading does. *)
Theorem C83_update : forall C inj vb a rs,
  (hash_into C inj vb a (read_before rs) = None -> into_reads C inj vb a rs = None) /\
  forall a', hash_into C inj vb a (read_before rs) = Some a' ->
    exists thrown, into_reads C inj vb a rs = Some (a', thrown) /\ (thrown = true <-> throws rs).
Proof.
  intros C inj vb a rs. rewrite LThrow.into_reads_before. split.
  - intros ->. reflexivity.
  - intros a' ->. exists (LThrow.failed rs). split; [reflexivity|apply LThrow.failed_spec].
Qed.
Print Assumptions C83_update.

(** So in any program over accumulators of any hashes, that catches the exceptions and goes on, digests are the published
    digests of what was read. *)
Theorem C83_programs : forall (K : Type) (C : K -> construction) (inj : K -> injector) (H : K -> list N -> list N),
  (forall k, library_hash (inj k) (C k) (H k)) ->
  forall cs : list (call (K * list N) (nat * list (option N)) unit),
  Forall (fun c => match c with
    | Create _ (k, junk) => block_ok (c_word (C k)) (c_words (C k)) junk
    | Update _ (vb, rs) => vb mod 8 = 0 /\ 0 < vb /\ (forall k, c_word (C k) mod vb = 0) /\ Forall (fits vb) (read_before rs)
    | _ => True end) cs ->
  let value := fun u => range_octets host_order (fst u) (snd u) in
  let read := shortened (fun u : nat * list (option N) => (fst u, read_before (snd u))) cs in
  (N.of_nat (8 * length (all_octets value read)) < 2 ^ 64)%N ->
  mixed_reads C inj nothing cs = digests_of H value nothing read.
Proof.
  intros K C inj H HL cs HF value read HN. rewrite LThrow.mixed_short. apply (C80_programs K C inj H HL); [|exact HN].
  unfold shortened. apply Forall_map. eapply Forall_impl; [|exact HF]. intros [i [k junk]|i [vb rs]|i e|i k] Hc; exact Hc.
Qed.
Print Assumptions C83_programs.

(** The same for hash_to_field, the Pedersen hash and CRCs: the program runs as if every range ended where reading it fails
    (what that gives is C75's). *)
Theorem C83_programs_hash_to_field : forall C inj b p m L count dst cs,
  h2f_reads C inj b p m L count dst nothing cs =
  h2f_calls C inj b p m L count dst nothing (shortened (fun u : nat * list (option N) => (fst u, read_before (snd u))) cs).
Proof. exact LThrow.h2f_short. Qed.
Print Assumptions C83_programs_hash_to_field.
Theorem C83_programs_pedersen : forall (G : Type) (zero : G) add mul base p width c cs,
  pedersen_reads zero add mul base p width c nothing cs =
  pedersen_calls zero add mul base p width c nothing (shortened read_before cs).
Proof. exact (@LThrow.pedersen_short). Qed.
Print Assumptions C83_programs_pedersen.
Theorem C83_programs_crc : forall cc P, SpecCrc.crc_ok P -> PCrc.computes cc P ->
  forall cs : list (call unit (list (option N)) unit),
  Forall (fun c => match c with Update _ rs => Forall (fits 8) (read_before rs) | _ => True end) cs ->
  crc_reads cc (SpecCrc.W P) nothing cs =
  reports (fun xs => xs) [] (SpecCrc.CRC_octets P) nothing (shortened read_before cs).
Proof.
  intros cc P HP HC cs HF. rewrite LThrow.crc_short, (LStore.crc_store cc P _ HP HC).
  - generalize (@nothing (list N)) as slots. clear. induction cs as [|c cs IH]; intros slots; [reflexivity|].
    destruct c as [i j|i u|i e|i k]; cbn [shortened map reports snd]; fold (shortened (J := unit) (E := unit) read_before cs);
      try fold (shortened (J := unit) (E := unit) (fun rs : list (option N) => (MCrc.Weaker, read_before rs)) cs).
    + apply IH.
    + destruct (slots i); [apply IH|reflexivity].
    + destruct (slots i); [|reflexivity]. now rewrite IH.
    + destruct (slots i); [apply IH|reflexivity].
  - unfold shortened. apply Forall_map. eapply Forall_impl; [|exact HF]. intros [i j|i rs|i e|i k] Hc; exact Hc.
Qed.
Print Assumptions C83_programs_crc.

(** An entry point that writes to an output iterator writes nothing if reading fails, and returns no iterator; otherwise it
    writes the published digest and nothing else. *)
Theorem C83_output : forall inj C H vb rs m out junk, library_hash inj C H ->
  vb mod 8 = 0 -> 0 < vb -> c_word C mod vb = 0 -> Forall (fits vb) (read_before rs) -> block_ok (c_word C) (c_words C) junk ->
  (N.of_nat (vb * length (read_before rs)) < 2 ^ 64)%N ->
  (throws rs -> reads_out C inj junk vb rs m out = Some (m, None)) /\
  (~ throws rs -> exists m' next, reads_out C inj junk vb rs m out = Some (m', Some next) /\
     written m out (H (range_octets host_order vb (read_before rs))) (Some (m', next))).
Proof. exact LThrow.output. Qed.
Print Assumptions C83_output.

(** SHA-256 and Tiger: the first range fails after two values (one word is still in the stream processor), the second before
    its first, the third after a whole block. *)
Definition failing : list (call (bool * list N) (nat * list (option N)) unit) :=
  [Create 0 (true, repeat 7%N 16); Create 1 (false, repeat 9%N 8); Update 0 (8, [Some 1; Some 2; None; Some 9]%N);
   Update 1 (16, [None; Some 5]%N); Update 1 (8, repeat (Some 3%N) 64 ++ [None]); Update 0 (16, [Some 0x0403]%N); Extract 0 tt; Extract 1 tt].
Example C83_failing :
  mixed_reads side_C side_inj nothing failing =
  Some [(0, SpecSha.SHA256 [1; 2; 3; 4]%N); (1, SpecTiger.TIGER 3 (repeat 3%N 64))].
Proof.
  rewrite (C83_programs bool side_C side_inj side_H (proj1 C80_side_by_side) failing).
  - cbn [failing shortened map]. reflexivity.
  - assert (F : forall w n x, (x < 2 ^ N.of_nat w)%N -> block_ok w n (repeat x n)).
    { intros w n x Hx. split; [apply repeat_length|]. apply Forall_forall. intros y Hy. apply repeat_spec in Hy. now subst y. }
    repeat (apply Forall_cons; [first [exact I | apply (F 32 16); reflexivity | apply (F 64 8); reflexivity |
      split; [reflexivity|split; [apply Nat.lt_0_succ|split; [intros [|]; reflexivity|repeat constructor]]]]|]). apply Forall_nil.
  - reflexivity.
Qed.
Example C83_failing_throws : throws [Some 1%N; None] /\ ~ throws [Some 1%N; Some 2%N] /\ read_before [Some 1%N; None; Some 9%N] = [1%N].
Proof.
  split; [right; now left|]. split; [intros [E|[E|E]]; [discriminate|discriminate|exact E]|reflexivity].
Qed.
