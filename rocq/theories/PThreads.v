(** * Properties C81 and C82: threads

    Specification: SpecThreads.v (what the calls of a thread may use), SpecStore.v and SpecLibrary.v (programs).
    Model: MThreads.v (turns and schedules) over MAcc.v, MXmd.v, MPedersen.v, MCrc.v. *)
From Coq Require Import NArith ZArith Arith List.
From Verif Require Import SpecStream SpecOctets SpecOctetHash SpecStore MPack MAcc MHash SpecHash MStore SpecLibrary.
From Verif Require Import SpecXmd MXmd SpecPedersen MPedersen MStoreMore SpecThreads MThreads PLibrary.
From Verif Require LStore PMD.
From Verif Require SpecSha SpecTiger SpecCrc MCrc PCrc MKeccak PXmd PPedersen LPedersenStmt LThreads LCrc.
Import ListNotations.

(** C81.  A program runs [before], then any number of threads, in any order of their turns.  When each thread uses only
    accumulators of its own, of any hashes, no turn goes wrong and every thread is given, digest by digest, the published
    digests of what was fed to its accumulators, as if it ran alone; and once it has had enough turns, all of them. *)
Theorem C81_threads : forall (K : Type) (C : K -> construction) (inj : K -> injector) (H : K -> list N -> list N),
  (forall k, library_hash (inj k) (C k) (H k)) ->
  forall (owner : nat -> option nat) (before : list (call (K * list N) (nat * list N) unit))
         (calls : nat -> list (call (K * list N) (nat * list N) unit)) (alone : nat -> list (nat * list N)) (schedule : list nat),
  (forall i, owner i <> None) ->
  Forall no_digest before -> (forall t, Forall (may owner t) (calls t)) ->
  let value := fun u => range_octets host_order (fst u) (snd u) in
  (forall t, Forall (fun c => match c with
    | Create _ (k, junk) => block_ok (c_word (C k)) (c_words (C k)) junk
    | Update _ (vb, xs) => vb mod 8 = 0 /\ 0 < vb /\ (forall k, c_word (C k) mod vb = 0) /\ Forall (fits vb) xs
    | _ => True end) (before ++ calls t)) ->
  (forall t, (N.of_nat (8 * length (all_octets value (before ++ calls t))) < 2 ^ 64)%N) ->
  (forall t, digests_of H value nothing (before ++ calls t) = Some (alone t)) ->
  exists m, mixed_schedule C inj before calls schedule = Some m /\
    forall t, part_of (t_reports (m_threads m t)) (alone t) (finished m t) /\
      (turns_needed (fun u : nat * list N => length (snd u)) (calls t) <= turns_of t schedule -> finished m t).
Proof.
  intros K C inj H HL owner before calls alone schedule _ HB HF value HC HN HA. apply (LThreads.mixed_threads C inj owner); auto.
  intros t. rewrite (C80_programs K C inj H HL (before ++ calls t) (HC t) (HN t)). apply HA.
Qed.
Print Assumptions C81_threads.

(** The same for hash_to_field, whose digests of any program are those of C75_programs_hash_to_field... *)
Theorem C81_threads_hash_to_field : forall C inj b p m L count dst (owner : nat -> option nat) before calls alone schedule,
  (forall i, owner i <> None) -> Forall no_digest before -> (forall t, Forall (may owner t) (calls t)) ->
  (forall t, h2f_calls C inj b p m L count dst nothing (before ++ calls t) = Some (alone t)) ->
  exists s, h2f_schedule C inj b p m L count dst before calls schedule = Some s /\
    forall t, part_of (t_reports (m_threads s t)) (alone t) (finished s t) /\
      (turns_needed (fun u : nat * list N => length (snd u)) (calls t) <= turns_of t schedule -> finished s t).
Proof. exact LThreads.h2f_threads. Qed.
Print Assumptions C81_threads_hash_to_field.
(** ... for hash_to_curve (C75_programs_hash_to_curve)... *)
Theorem C81_threads_hash_to_curve : forall (F G : Type) C inj b (elem : list N -> F) (ep : F -> F -> G) p m L count dst
    (owner : nat -> option nat) before calls alone schedule,
  (forall i, owner i <> None) -> Forall no_digest before -> (forall t, Forall (may owner t) (calls t)) ->
  (forall t, h2c_calls C inj b elem ep p m L count dst nothing (before ++ calls t) = Some (alone t)) ->
  exists s, h2c_schedule C inj b elem ep p m L count dst before calls schedule = Some s /\
    forall t, part_of (t_reports (m_threads s t)) (alone t) (finished s t) /\
      (turns_needed (fun u : nat * list N => length (snd u)) (calls t) <= turns_of t schedule -> finished s t).
Proof. exact (@LThreads.h2c_threads). Qed.
Print Assumptions C81_threads_hash_to_curve.
(** ... for the Pedersen hash (C75_programs_pedersen)... *)
Theorem C81_threads_pedersen : forall (G : Type) (zero : G) add mul base p width c (owner : nat -> option nat) before calls alone schedule,
  (forall i, owner i <> None) -> Forall no_digest before -> (forall t, Forall (may owner t) (calls t)) ->
  (forall t, pedersen_calls zero add mul base p width c nothing (before ++ calls t) = Some (alone t)) ->
  exists s, pedersen_schedule zero add mul base p width c before calls schedule = Some s /\
    forall t, part_of (t_reports (m_threads s t)) (alone t) (finished s t) /\
      (turns_needed (@length bool) (calls t) <= turns_of t schedule -> finished s t).
Proof. exact (@LThreads.pedersen_threads). Qed.
Print Assumptions C81_threads_pedersen.
(** ... and for CRCs. *)
Theorem C81_threads_crc : forall cc P (owner : nat -> option nat) before calls alone schedule,
  SpecCrc.crc_ok P -> PCrc.computes cc P ->
  (forall i, owner i <> None) -> Forall no_digest before -> (forall t, Forall (may owner t) (calls t)) ->
  (forall t, Forall (fun c => match c with Update _ u => Forall (fits 8) (snd u) | _ => True end) (before ++ calls t)) ->
  (forall t, reports (fun u => snd u) [] (SpecCrc.CRC_octets P) nothing (before ++ calls t) = Some (alone t)) ->
  exists s, crc_schedule cc (SpecCrc.W P) before calls schedule = Some s /\
    forall t, part_of (t_reports (m_threads s t)) (alone t) (finished s t) /\
      (turns_needed (fun u : MCrc.iterator * list N => length (snd u)) (calls t) <= turns_of t schedule -> finished s t).
Proof.
  intros cc P owner before calls alone schedule HP HC _ HB HF HV HA. apply (LThreads.crc_threads cc (SpecCrc.W P) owner); auto.
  intros t. rewrite (LStore.crc_store cc P (before ++ calls t) HP HC (HV t)). apply HA.
Qed.
Print Assumptions C81_threads_crc.

(** C82.  Digests may be taken, and copies made, of accumulators that several threads share and none writes to: proved for the
    hashes and the CRCs... *)
Theorem C82_shared_reads_partial : forall (K : Type) (C : K -> construction) (inj : K -> injector) (H : K -> list N -> list N),
  (forall k, library_hash (inj k) (C k) (H k)) ->
  forall (owner : nat -> option nat) (before : list (call (K * list N) (nat * list N) unit))
         (calls : nat -> list (call (K * list N) (nat * list N) unit)) (alone : nat -> list (nat * list N)) (schedule : list nat),
  Forall no_digest before -> (forall t, Forall (may owner t) (calls t)) ->
  let value := fun u => range_octets host_order (fst u) (snd u) in
  (forall t, Forall (fun c => match c with
    | Create _ (k, junk) => block_ok (c_word (C k)) (c_words (C k)) junk
    | Update _ (vb, xs) => vb mod 8 = 0 /\ 0 < vb /\ (forall k, c_word (C k) mod vb = 0) /\ Forall (fits vb) xs
    | _ => True end) (before ++ calls t)) ->
  (forall t, (N.of_nat (8 * length (all_octets value (before ++ calls t))) < 2 ^ 64)%N) ->
  (forall t, digests_of H value nothing (before ++ calls t) = Some (alone t)) ->
  exists m, mixed_schedule C inj before calls schedule = Some m /\
    forall t, part_of (t_reports (m_threads m t)) (alone t) (finished m t) /\
      (turns_needed (fun u : nat * list N => length (snd u)) (calls t) <= turns_of t schedule -> finished m t).
Proof.
  intros K C inj H HL owner before calls alone schedule HB HF value HC HN HA. apply (LThreads.mixed_threads C inj owner); auto.
  intros t. rewrite (C80_programs K C inj H HL (before ++ calls t) (HC t) (HN t)). apply HA.
Qed.
Print Assumptions C82_shared_reads_partial.
Theorem C82_shared_reads_crc_partial : forall cc P (owner : nat -> option nat) before calls alone schedule,
  SpecCrc.crc_ok P -> PCrc.computes cc P ->
  Forall no_digest before -> (forall t, Forall (may owner t) (calls t)) ->
  (forall t, Forall (fun c => match c with Update _ u => Forall (fits 8) (snd u) | _ => True end) (before ++ calls t)) ->
  (forall t, reports (fun u => snd u) [] (SpecCrc.CRC_octets P) nothing (before ++ calls t) = Some (alone t)) ->
  exists s, crc_schedule cc (SpecCrc.W P) before calls schedule = Some s /\
    forall t, part_of (t_reports (m_threads s t)) (alone t) (finished s t) /\
      (turns_needed (fun u : MCrc.iterator * list N => length (snd u)) (calls t) <= turns_of t schedule -> finished s t).
Proof.
  intros cc P owner before calls alone schedule HP HC HB HF HV HA. apply (LThreads.crc_threads cc (SpecCrc.W P) owner); auto.
  intros t. rewrite (LStore.crc_store cc P (before ++ calls t) HP HC (HV t)). apply HA.
Qed.
Print Assumptions C82_shared_reads_crc_partial.

(** ... for find_group_hash (C75_programs_find_group_hash)... *)
Theorem C82_shared_reads_find_group_hash_partial : forall C inj (P : Type) (decode : list N -> option P) cofactor_mul is_zero well_formed dst
    (owner : nat -> option nat) before calls alone schedule,
  Forall no_digest before -> (forall t, Forall (may owner t) (calls t)) ->
  (forall t, fgh_calls C inj decode cofactor_mul is_zero well_formed dst nothing (before ++ calls t) = Some (alone t)) ->
  exists s, fgh_schedule C inj decode cofactor_mul is_zero well_formed dst before calls schedule = Some s /\
    forall t, part_of (t_reports (m_threads s t)) (alone t) (finished s t) /\
      (turns_needed (fun u : nat * list N => length (snd u)) (calls t) <= turns_of t schedule -> finished s t).
Proof. exact (@LThreads.fgh_threads). Qed.
Print Assumptions C82_shared_reads_find_group_hash_partial.

(** ... and false of hash_to_field and the Pedersen hash: two threads that only take a digest of one accumulator are given
    different ones. *)
Theorem C82_shared_hash_to_field_refuted :
  let C := MKeccak.sha3 (inj_run BOLB 64 17) 256 in
  let inj := inj_run BOBB 64 17 in
  let junk := repeat 0%N 17 in
  exists s u v,
    h2f_schedule C inj 32 0x73eda753299d7d483339d80809a1d80553bda402fffe5bfeffffffff00000001 1 64 1 (repeat 65%N 16)
      [Create 0 junk; Update 0 (8, [97; 98; 99]%N)] (fun _ => [Extract 0 (fun _ => junk, repeat 0%N 64)]) [0; 1] = Some s /\
    t_reports (m_threads s 0) = [(0, u)] /\ t_reports (m_threads s 1) = [(0, v)] /\ u <> v.
Proof.
  intros C inj junk. destruct PXmd.C30_repeatable_refuted as (a & u & v & HI & HR & Hne).
  destruct (LThreads.h2f_shared _ _ _ _ _ _ _ _ _ _ _ _ _ _ _ _ HI HR) as (s & H1 & H2 & H3).
  exists s, u, v. repeat split; assumption.
Qed.
Print Assumptions C82_shared_hash_to_field_refuted.
Theorem C82_shared_pedersen_refuted :
  forall (G : Type) (zero : G) (add : G -> G -> G) (mul : Z -> G -> G) (base : N -> G) (p : Z) (width c : nat)
         (M : list bool),
  group_laws zero add -> (forall x y, add x y = x -> y = zero) -> (0 < p)%Z ->
  (forall i z, mul (z mod p)%Z (base i) = mul z (base i)) ->
  (forall i z, mul z (base i) = zero -> (z mod p = 0)%Z) ->
  is_chunks_per_segment p c ->
  2 <= c -> (16 ^ (Z.of_nat c - 1) < 2 ^ Z.of_nat width)%Z ->
  (N.of_nat (length (pad3 M)) < 2 ^ 64)%N ->
  (N.of_nat (length (pad3 M)) <= N.of_nat (3 * c) * 2 ^ 32)%N ->
  exists s g g', pedersen_schedule zero add mul base p width (N.of_nat c) [Create 0 tt; Update 0 M] (fun _ => [Extract 0 tt]) [0; 1] = Some s /\
    t_reports (m_threads s 0) = [(0, g)] /\ t_reports (m_threads s 1) = [(0, g')] /\ g <> g'.
Proof.
  intros G zero add mul base p width c M H1 H2 H3 H4 H5 H6 H7 H8 H9 H10.
  destruct (PPedersen.C30_pedersen_repeatable_refuted G zero add mul base p width c M H1 H2 H3 H4 H5 H6 H7 H8 H9 H10) as (g & g' & HR & Hne).
  destruct (LThreads.pedersen_shared zero add mul base p width (N.of_nat c) M g g' HR) as (s & E1 & E2 & E3).
  exists s, g, g'. repeat split; assumption.
Qed.
Print Assumptions C82_shared_pedersen_refuted.

(** Two threads with SHA-256 and Tiger: accumulator 0, fed before they start, is read by both, copied and the copy extended by
    the first; the second has one of its own.  Whatever the schedule, both get their digests. *)
Definition pair_before : list (call (bool * list N) (nat * list N) unit) :=
  [Create 0 (true, repeat 7%N 16); Update 0 (8, [1; 2]%N)].
Definition pair_calls (t : nat) : list (call (bool * list N) (nat * list N) unit) :=
  match t with
  | 0 => [Copy 0 1; Update 1 (16, [0x0403]%N); Extract 1 tt; Extract 0 tt]
  | 1 => [Create 2 (false, repeat 9%N 8); Update 2 (8, [1; 2]%N); Extract 0 tt; Extract 2 tt]
  | _ => []
  end.
Example C82_two_threads : forall schedule, 7 <= turns_of 0 schedule -> 8 <= turns_of 1 schedule ->
  exists m, mixed_schedule side_C side_inj pair_before pair_calls schedule = Some m /\
    t_reports (m_threads m 0) = [(1, SpecSha.SHA256 [1; 2; 3; 4]%N); (0, SpecSha.SHA256 [1; 2]%N)] /\
    t_reports (m_threads m 1) = [(0, SpecSha.SHA256 [1; 2]%N); (2, SpecTiger.TIGER 3 [1; 2]%N)].
Proof.
  intros schedule H0 H1.
  assert (F : forall w n x, (x < 2 ^ N.of_nat w)%N -> block_ok w n (repeat x n)).
  { intros w n x Hx. split; [apply repeat_length|]. apply Forall_forall. intros y Hy. apply repeat_spec in Hy. now subst y. }
  destruct (C82_shared_reads_partial bool side_C side_inj side_H (proj1 C80_side_by_side)
    (fun i => match i with 0 => None | 1 => Some 0 | _ => Some 1 end) pair_before pair_calls
    (fun t => match t with
      | 0 => [(1, SpecSha.SHA256 [1; 2; 3; 4]%N); (0, SpecSha.SHA256 [1; 2]%N)]
      | 1 => [(0, SpecSha.SHA256 [1; 2]%N); (2, SpecTiger.TIGER 3 [1; 2]%N)]
      | _ => [] end) schedule) as (m & EM & HM).
  - repeat constructor.
  - intros [|[|t]]; repeat (apply Forall_cons; [first [reflexivity | left; reflexivity | right; reflexivity |
      split; [first [left; reflexivity | right; reflexivity]|reflexivity]]|]); apply Forall_nil.
  - intros [|[|t]]; cbn [app pair_before pair_calls];
      repeat (apply Forall_cons; [first [exact I | apply (F 32 16); reflexivity | apply (F 64 8); reflexivity |
        split; [reflexivity|split; [apply Nat.lt_0_succ|split; [intros [|]; reflexivity|repeat constructor]]]]|]); apply Forall_nil.
  - intros [|[|t]]; reflexivity.
  - intros [|[|t]]; reflexivity.
  - exists m. split; [exact EM|]. destruct (HM 0) as [(r0 & A0 & B0) T0]. destruct (HM 1) as [(r1 & A1 & B1) T1].
    rewrite (B0 (T0 H0)), app_nil_r in A0. rewrite (B1 (T1 H1)), app_nil_r in A1. now split; symmetry.
Qed.
(** Thread 1 is preempted in the middle of its update. *)
Example C82_schedule : let schedule := [1; 1; 1; 0; 0; 1; 0; 0; 0; 1; 1; 0; 1; 0; 1; 0] in
  7 <= turns_of 0 schedule /\ 8 <= turns_of 1 schedule.
Proof. split; repeat constructor. Qed.

(** The same without sharing: the accumulator fed before belongs to the first thread from then on. *)
Definition own_calls (t : nat) : list (call (bool * list N) (nat * list N) unit) :=
  match t with
  | 0 => [Copy 0 1; Update 1 (16, [0x0403]%N); Extract 1 tt; Update 0 (8, [9]%N); Extract 0 tt]
  | 1 => [Create 2 (false, repeat 9%N 8); Update 2 (8, [1; 2]%N); Extract 2 tt]
  | _ => []
  end.
Example C81_two_threads : forall schedule, 11 <= turns_of 0 schedule -> 7 <= turns_of 1 schedule ->
  exists m, mixed_schedule side_C side_inj pair_before own_calls schedule = Some m /\
    t_reports (m_threads m 0) = [(1, SpecSha.SHA256 [1; 2; 3; 4]%N); (0, SpecSha.SHA256 [1; 2; 9]%N)] /\
    t_reports (m_threads m 1) = [(2, SpecTiger.TIGER 3 [1; 2]%N)].
Proof.
  intros schedule H0 H1.
  assert (F : forall w n x, (x < 2 ^ N.of_nat w)%N -> block_ok w n (repeat x n)).
  { intros w n x Hx. split; [apply repeat_length|]. apply Forall_forall. intros y Hy. apply repeat_spec in Hy. now subst y. }
  destruct (C81_threads bool side_C side_inj side_H (proj1 C80_side_by_side)
    (fun i => match i with 0 | 1 => Some 0 | _ => Some 1 end) pair_before own_calls
    (fun t => match t with
      | 0 => [(1, SpecSha.SHA256 [1; 2; 3; 4]%N); (0, SpecSha.SHA256 [1; 2; 9]%N)]
      | 1 => [(2, SpecTiger.TIGER 3 [1; 2]%N)]
      | _ => [] end) schedule) as (m & EM & HM).
  - intros [|[|i]]; discriminate.
  - repeat constructor.
  - intros [|[|t]]; repeat (apply Forall_cons; [first [reflexivity | left; reflexivity | right; reflexivity |
      split; [first [left; reflexivity | right; reflexivity]|reflexivity]]|]); apply Forall_nil.
  - intros [|[|t]]; cbn [app pair_before own_calls];
      repeat (apply Forall_cons; [first [exact I | apply (F 32 16); reflexivity | apply (F 64 8); reflexivity |
        split; [reflexivity|split; [apply Nat.lt_0_succ|split; [intros [|]; reflexivity|repeat constructor]]]]|]); apply Forall_nil.
  - intros [|[|t]]; reflexivity.
  - intros [|[|t]]; reflexivity.
  - exists m. split; [exact EM|]. destruct (HM 0) as [(r0 & A0 & B0) T0]. destruct (HM 1) as [(r1 & A1 & B1) T1].
    rewrite (B0 (T0 H0)), app_nil_r in A0. rewrite (B1 (T1 H1)), app_nil_r in A1. now split; symmetry.
Qed.

(** The other kinds: two threads with an accumulator each. *)
Definition each_own {J U E} (j : J) (u : nat -> U) (e : E) (t : nat) : list (call J U E) :=
  match t with 0 | 1 => [Create t j; Update t (u t); Extract t e; Extract t e] | _ => [] end.
Example C81_pedersen_hypotheses :
  let calls := each_own tt (fun t => match t with 0 => [true; false; true; true; false] | _ => [false; true] end) tt in
  let owner := fun i => Some i in
  (forall t, Forall (may owner t) (calls t)) /\
  forall t, exists alone, length alone = match t with 0 | 1 => 2 | _ => 0 end /\
    pedersen_calls (LPedersenStmt.of_Z 0) LPedersenStmt.add139 LPedersenStmt.mul139 LPedersenStmt.base139 139 8 2%N nothing ([] ++ calls t) = Some alone.
Proof.
  split.
  - intros [|[|t]]; repeat (apply Forall_cons; [first [reflexivity | left; reflexivity]|]); apply Forall_nil.
  - intros [|[|t]]; eexists; (split; [|cbv; reflexivity]); reflexivity.
Qed.
Example C81_crc_hypotheses :
  let calls := each_own tt (fun t => match t with 0 => (MCrc.Pointer, [97; 98]%N) | _ => (MCrc.Weaker, [1; 2; 3]%N) end) tt in
  let owner := fun i => Some i in
  SpecCrc.crc_ok SpecCrc.CRC32_PNG /\ PCrc.computes (LCrc.register_computer SpecCrc.CRC32_PNG) SpecCrc.CRC32_PNG /\
  (forall t, Forall (may owner t) (calls t)) /\
  (forall t, Forall (fun c => match c with Update _ u => Forall (fits 8) (snd u) | _ => True end) ([] ++ calls t)) /\
  forall t, reports (fun u => snd u) [] (SpecCrc.CRC_octets SpecCrc.CRC32_PNG) nothing ([] ++ calls t) =
    Some match t with
         | 0 => let d := SpecCrc.CRC_octets SpecCrc.CRC32_PNG [97; 98]%N in [(0, d); (0, d)]
         | 1 => let d := SpecCrc.CRC_octets SpecCrc.CRC32_PNG [1; 2; 3]%N in [(1, d); (1, d)]
         | _ => [] end.
Proof.
  split; [|split; [apply LCrc.register_computes|split; [|split]]].
  - repeat split; try reflexivity; repeat constructor.
  - intros [|[|t]]; repeat (apply Forall_cons; [first [reflexivity | left; reflexivity]|]); apply Forall_nil.
  - intros [|[|t]]; repeat constructor.
  - intros [|[|t]]; reflexivity.
Qed.
Example C81_hash_to_field_hypotheses :
  let inj := inj_keep LOBB 32 16 in
  let C := PMD.md LOBB 32 16 64 5 (repeat 1%N 5) (fun s _ => s) inj in
  let junk := repeat 7%N 16 in
  let calls := each_own junk (fun t => (8, match t with 0 => [97; 98]%N | _ => [1; 2; 3]%N end)) (fun _ : nat => junk, repeat 0%N 20) in
  let owner := fun i => Some i in
  (forall t, Forall (may owner t) (calls t)) /\
  forall t, exists alone, length alone = match t with 0 | 1 => 2 | _ => 0 end /\
    h2f_calls C inj 20 97 1 20 1 (repeat 65%N 16) nothing ([] ++ calls t) = Some alone.
Proof.
  split.
  - intros [|[|t]]; repeat (apply Forall_cons; [first [reflexivity | left; reflexivity]|]); apply Forall_nil.
  - intros [|[|t]].
    + exists [(0, [[61%N]]); (0, [[61%N]])]. split; vm_compute; reflexivity.
    + exists [(1, [[61%N]]); (1, [[61%N]])]. split; vm_compute; reflexivity.
    + exists []. split; reflexivity.
Qed.
Example C81_hash_to_curve_hypotheses :
  let inj := inj_keep LOBB 32 16 in
  let C := PMD.md LOBB 32 16 64 5 (repeat 1%N 5) (fun s _ => s) inj in
  let junk := repeat 7%N 16 in
  let calls := each_own junk (fun t => (8, match t with 0 => [97; 98]%N | _ => [1; 2; 3]%N end)) (fun _ : nat => junk, repeat 0%N 40) in
  forall t, exists alone, length alone = match t with 0 | 1 => 2 | _ => 0 end /\
    h2c_calls C inj 20 (fun u => hd 0%N u) N.add 97 1 20 2 (repeat 65%N 16) nothing ([] ++ calls t) = Some alone.
Proof.
  intros inj C junk calls [|[|t]].
  - exists [(0, 122%N); (0, 122%N)]. split; vm_compute; reflexivity.
  - exists [(1, 122%N); (1, 122%N)]. split; vm_compute; reflexivity.
  - exists []. split; reflexivity.
Qed.
Example C82_find_group_hash_hypotheses :
  let inj := inj_keep LOBB 32 16 in
  let C := PMD.md LOBB 32 16 64 5 (repeat 1%N 5) (fun s _ => s) inj in
  let junk := repeat 7%N 16 in
  let before := [Create 0 junk; Update 0 (8, [97; 98]%N)] in
  let calls t := match t with 0 => [Copy 0 1; Extract 1 3] | 1 => [Extract 0 3] | _ => [] end in
  let owner i := match i with 0 => None | _ => Some 0 end in
  Forall no_digest before /\ (forall t, Forall (may owner t) (calls t)) /\
  forall t, exists alone, length alone = match t with 0 | 1 => 1 | _ => 0 end /\
    fgh_calls C inj (fun os => Some os) (fun p => p) (fun _ => false) (fun _ => true) (repeat 65%N 8) nothing (before ++ calls t) = Some alone.
Proof.
  intros inj C junk before calls owner. split; [repeat constructor|]. split.
  - intros [|[|t]]; repeat (apply Forall_cons; [first [left; reflexivity | right; reflexivity |
      split; [right; reflexivity|reflexivity]]|]); apply Forall_nil.
  - intros [|[|t]].
    + exists [(1, MFgh.Returned (concat (repeat [1; 0; 0; 0]%N 5)))]. split; vm_compute; reflexivity.
    + exists [(0, MFgh.Returned (concat (repeat [1; 0; 0; 0]%N 5)))]. split; vm_compute; reflexivity.
    + exists []. split; vm_compute; reflexivity.
Qed.
