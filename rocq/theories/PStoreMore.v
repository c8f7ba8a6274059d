(** * Properties C75 and C30, continued: accumulators of find_group_hash, of hash_to_curve and of the Pedersen hash

    Specification: SpecStore.v, SpecFgh.v, SpecXmd.v, SpecXmdHist.v, SpecPedersen.v, SpecPedStore.v.  Model: MStore.v,
    MStoreMore.v, MFgh.v, MH2C.v, MPedersen.v. *)
From Coq Require Import NArith ZArith Arith List Bool.
From Verif Require Import SpecStream MPack MAcc SpecOctets SpecOctetHash SpecXmd MXmd SpecXmdHist.
From Verif Require Import SpecFgh MFgh MH2C SpecPedersen MPedersen SpecStore MStore MStoreMore SpecPedStore.
From Verif Require LStoreMore LPedersenStmt LPedStore.
Import ListNotations.

(** find_group_hash: in every program each extraction, observed for at least 256 turns, ends as C35 says for the octets fed
    to that accumulator, and leaves every accumulator as it was: it returns the cofactor multiple of the first candidate
    that decodes, stops at an assertion if that one is zero or not on the curve, and is still running if there is none. *)
Theorem C75_programs_find_group_hash : forall C inj H, octet_hash C inj H ->
  forall (P : Type) (decode : list N -> option P) cofactor_mul is_zero well_formed dst, Forall (fits 8) dst ->
  forall cs : list (call (list N) (nat * list N) nat),
  Forall (fun c => match c with
    | Create _ junk => block_ok (c_word C) (c_words C) junk
    | Update _ u => piece_ok C u
    | Extract _ turns => 256 <= turns
    | Copy _ _ => True end) cs ->
  let value := fun u => range_octets (c_host C) (fst u) (snd u) in
  (N.of_nat (8 * (length dst + length URS + 1)) < 2 ^ 64)%N ->
  Forall (fun m => (N.of_nat (8 * (length dst + length URS + length m + 1)) < 2 ^ 64)%N) (messages value [] nothing cs) ->
  fgh_calls C inj decode cofactor_mul is_zero well_formed dst nothing cs =
  reports value [] (fun msg =>
    match first_valid H decode cofactor_mul (dst ++ URS) msg with
    | None => Running
    | Some q => if is_zero q || negb (well_formed q) then Aborted else Returned q
    end) nothing cs.
Proof. exact (fun C inj H OH P decode cf iz wf dst HD cs => LStoreMore.fgh_store C inj H OH decode cf iz wf dst HD cs). Qed.
Print Assumptions C75_programs_find_group_hash.

(** hash_to_curve: as hash_to_field, an extraction adds octets to the message of its own accumulator only... *)
Theorem C75_programs_hash_to_curve :
  forall (F G : Type) (elem : list N -> F) gadd gmul (map_to_curve : F -> G) h_eff,
  forall C inj H r b k p m L dst,
  octet_hash C inj H -> digest_octets H b -> input_block_octets C r ->
  Forall (fits 8) dst -> 16 <= length dst <= 255 -> accepted b k (2 * m * L) = true ->
  (2 * m * L) mod b = 0 -> 0 < 2 * m * L -> (N.of_nat (8 * r) < 2 ^ 64)%N ->
  forall cs : list (call (list N) (nat * list N) ((nat -> list N) * list N)),
  Forall (fun c => match c with
    | Create _ junk => block_ok (c_word C) (c_words C) junk
    | Update _ u => piece_ok C u
    | Extract _ e => (forall i, block_ok (c_word C) (c_words C) (fst e i)) /\ length (snd e) = 2 * m * L
    | Copy _ _ => True end) cs ->
  let value := fun u => range_octets (c_host C) (fst u) (snd u) in
  let left := left_behind dst (2 * m * L) in
  Forall (fun msg => (N.of_nat (8 * (r + length msg)) < 2 ^ 64)%N) (messages value left nothing cs) ->
  h2c_calls C inj b elem (ep_map gadd gmul map_to_curve h_eff) p m L 2 dst nothing cs =
  reports value left (fun msg =>
    let u := hash_to_field H b r p m L 2 msg dst in
    gmul (gadd (map_to_curve (elem (nth 0 u []))) (map_to_curve (elem (nth 1 u [])))) h_eff) nothing cs.
Proof.
  exact (fun F G elem gadd gmul mtc h_eff C inj H r b k p m L dst OH DO RO HD D16 HA Hm Hp HR cs =>
    LStoreMore.h2c_store elem gadd gmul mtc h_eff C inj H r b k p m L dst OH DO RO HD D16 HA Hm Hp HR cs).
Qed.
Print Assumptions C75_programs_hash_to_curve.

(** ... and a program that takes each digest from a copy gets the group element of everything fed so far. *)
Theorem C75_digests_from_copies_hash_to_curve :
  forall (F G : Type) (elem : list N -> F) gadd gmul (map_to_curve : F -> G) h_eff,
  forall C inj H r b k p m L dst,
  octet_hash C inj H -> digest_octets H b -> input_block_octets C r ->
  Forall (fits 8) dst -> 16 <= length dst <= 255 -> accepted b k (2 * m * L) = true ->
  (2 * m * L) mod b = 0 -> 0 < 2 * m * L -> (N.of_nat (8 * r) < 2 ^ 64)%N ->
  forall junk (ss : list (step (nat * list N) ((nat -> list N) * list N))),
  block_ok (c_word C) (c_words C) junk ->
  Forall (fun s => match s with
    | Feed u => piece_ok C u
    | Digest e => (forall i, block_ok (c_word C) (c_words C) (fst e i)) /\ length (snd e) = 2 * m * L end) ss ->
  let value := fun u => range_octets (c_host C) (fst u) (snd u) in
  (N.of_nat (8 * (r + length (fed_values value ss ++ left_behind dst (2 * m * L)))) < 2 ^ 64)%N ->
  h2c_calls C inj b elem (ep_map gadd gmul map_to_curve h_eff) p m L 2 dst nothing (from_copies junk ss) =
  Some (map (fun d => (1, d)) (digests value (fun msg =>
    let u := hash_to_field H b r p m L 2 msg dst in
    gmul (gadd (map_to_curve (elem (nth 0 u []))) (map_to_curve (elem (nth 1 u [])))) h_eff) [] ss)).
Proof.
  exact (fun F G elem gadd gmul mtc h_eff C inj H r b k p m L dst OH DO RO HD D16 HA Hm Hp HR junk ss =>
    LStoreMore.h2c_copies elem gadd gmul mtc h_eff C inj H r b k p m L dst OH DO RO HD D16 HA Hm Hp HR junk ss).
Qed.
Print Assumptions C75_digests_from_copies_hash_to_curve.

(** C30 for hash_to_curve: the n-th extraction of one accumulator is that of the octets fed so far and of those left by the
    extractions before.  Missing: repeatability, refuted for the field elements in C30_repeatable_refuted. *)
Theorem C30_h2c_histories_partial :
  forall (F G : Type) (elem : list N -> F) gadd gmul (map_to_curve : F -> G) h_eff,
  forall C inj H r b k p m L dst,
  octet_hash C inj H -> digest_octets H b -> input_block_octets C r ->
  Forall (fits 8) dst -> 16 <= length dst <= 255 -> accepted b k (2 * m * L) = true ->
  (2 * m * L) mod b = 0 -> 0 < 2 * m * L ->
  forall junk ops, block_ok (c_word C) (c_words C) junk -> Forall (xop_ok C (2 * m * L)) ops ->
  (N.of_nat (8 * (r + length (absorbed (c_host C) (left_behind dst (2 * m * L)) ops))) < 2 ^ 64)%N ->
  exists a, xmd_init C inj junk = Some a /\
    h2c_run C inj b elem (ep_map gadd gmul map_to_curve h_eff) p m L 2 dst a ops =
    Some (outputs (c_host C) (fun msg =>
      let u := hash_to_field H b r p m L 2 msg dst in
      gmul (gadd (map_to_curve (elem (nth 0 u []))) (map_to_curve (elem (nth 1 u [])))) h_eff)
      (left_behind dst (2 * m * L)) [] ops).
Proof.
  exact (fun F G elem gadd gmul mtc h_eff C inj H r b k p m L dst OH DO RO HD D16 HA Hm Hp junk ops =>
    LStoreMore.h2c_history elem gadd gmul mtc h_eff C inj H r b k p m L dst OH DO RO HD D16 HA Hm Hp junk ops).
Qed.
Print Assumptions C30_h2c_histories_partial.

(** A program with two extractions and a copy between them. *)
Example C75_curve_program :
  let cs := [Create 0 (repeat 0%N 17); Update 0 (8, [1; 2]%N); Copy 0 1; Extract 0 (fun _ : nat => repeat 0%N 17, repeat 0%N 128);
             Update 1 (8, [3]%N); Extract 1 (fun _ => repeat 0%N 17, repeat 0%N 128)] in
  let value := fun u : nat * list N => range_octets host_order (fst u) (snd u) in
  let left := left_behind (repeat 65%N 16) 128 in
  Forall (fun msg => (N.of_nat (8 * (136 + length msg)) < 2 ^ 64)%N) (messages value left nothing cs) /\
  reports value left (fun msg => msg) nothing cs = Some [(0, [1; 2]%N); (1, [1; 2; 3]%N)] /\
  accepted 32 128 (2 * 1 * 64) = true /\ (2 * 1 * 64) mod 32 = 0.
Proof. split; [repeat constructor|]. repeat split. Qed.
Example C75_find_group_hash_program :
  let cs : list (call (list N) (nat * list N) nat) :=
    [Create 0 (repeat 0%N 17); Update 0 (8, [1; 2]%N); Copy 0 1; Extract 0 256; Update 1 (8, [3]%N); Extract 1 300; Extract 0 256] in
  let value := fun u : nat * list N => range_octets host_order (fst u) (snd u) in
  Forall (fun m => (N.of_nat (8 * (length zcash_PH + length URS + length m + 1)) < 2 ^ 64)%N) (messages value [] nothing cs) /\
  reports value [] (fun msg => msg) nothing cs = Some [(0, [1; 2]%N); (1, [1; 2; 3]%N); (0, [1; 2]%N)].
Proof. split; [repeat constructor|reflexivity]. Qed.

(** Pedersen accumulators with extractions from the accumulators themselves: every program reports, for each accumulator,
    what C30_pedersen_histories_partial says of its own updates and extractions (those of the accumulator it was copied from
    included), whatever is done to the others. *)
Theorem C75_programs_pedersen :
  forall (G : Type) (zero : G) (add : G -> G -> G) (mul : Z -> G -> G) (base : N -> G) (p : Z) (width c : nat),
  group_laws zero add -> (0 < p)%Z ->
  (forall i z, mul (z mod p)%Z (base i) = mul z (base i)) ->
  2 <= c -> (16 ^ (Z.of_nat c - 1) < 2 ^ Z.of_nat width)%Z ->
  forall cs : list (call unit (list bool) unit),
  Forall (fun M => (N.of_nat (length M) < 2 ^ 64)%N /\ (N.of_nat (length M) <= N.of_nat (3 * c) * 2 ^ 32)%N)
    (pedersen_messages nothing cs) ->
  pedersen_calls zero add mul base p width (N.of_nat c) nothing cs =
  pedersen_reports zero add mul (fun i => base (N.of_nat i)) c nothing cs.
Proof. exact (@LPedStore.programs). Qed.
Print Assumptions C75_programs_pedersen.

(** Accumulator 0 is copied before and after a digest is taken from it: the copy made before still gives the hash, 0 itself
    and the copy made after do not. *)
Example C75_pedersen_program :
  let cs := [Create 0 tt; Update 0 [true; false; true; true; false; true; true]; Copy 0 1; Extract 0 tt; Copy 0 2; Extract 1 tt;
             Extract 0 tt; Extract 2 tt] in
  Forall (fun M => (N.of_nat (length M) < 2 ^ 64)%N /\ (N.of_nat (length M) <= N.of_nat (3 * 2) * 2 ^ 32)%N)
    (pedersen_messages nothing cs) /\
  option_map (map (fun d => (fst d, proj1_sig (snd d))))
    (pedersen_calls (LPedersenStmt.of_Z 0) LPedersenStmt.add139 LPedersenStmt.mul139 LPedersenStmt.base139 139 8 2%N nothing cs) =
  Some [(0, 109%Z); (1, 109%Z); (0, 113%Z); (2, 113%Z)].
Proof. split; [repeat constructor; try reflexivity; discriminate|vm_compute; reflexivity]. Qed.
