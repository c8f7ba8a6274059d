(** * Property C73: the default Pedersen hash, with its base points

    Specification: SpecPedersen.v, SpecFgh.v (Zcash protocol specification, sections 5.4.1.7 and 5.4.9.5) and
    SpecSha.v.  Model: MPedersenDefault.v, which joins MPedersen.v, MFgh.v, MSha.v and MAcc.v. *)
From Coq Require Import NArith ZArith Arith List Bool.
From Verif Require Import SpecStream MPack SpecFgh SpecPedersen SpecSha MPedersenDefault.
From Verif Require LPedersenDefault LFghStmt PSha.
Import ListNotations.

(** C73: the base point of segment i is FindGroupHash of "Zcash_PH", the URS and the four octets of i, least
    significant first, with SHA-256 as its hash; the result is the sum of the segments of the message with these.
    Every hypothesis but the last two is on external code.  The last two: fewer than 2^32 + 1 segments, and the
    first candidate that decodes must be good for every segment, which is what the published FindGroupHash returns
    then (second theorem). *)
Theorem C73_default_pedersen :
  forall cipher inj (P : Type) decode (cofactor_mul : P -> P) is_zero well_formed zero add (mul : Z -> P -> P) junk
         fuel width pieces (I : nat -> P),
  PSha.cipher_computes cipher 32 8 sha256_steps -> injector_contract BOBB 32 16 inj ->
  (forall i, block_ok 32 16 (junk i)) -> 256 <= fuel -> 249 <= width ->
  group_laws zero add -> (forall z, mul (z mod jubjub_order)%Z zero = mul z zero) ->
  (forall q z, mul (z mod jubjub_order)%Z (cofactor_mul q) = mul z (cofactor_mul q)) ->
  (N.of_nat (length (concat pieces)) <= 189 * 2 ^ 32)%N ->
  (forall i, i < length (segments 63 (pad3 (concat pieces))) ->
     first_valid SHA256 decode cofactor_mul (zcash_PH ++ URS) (octets_le 4 (N.of_nat i)) = Some (I i) /\
     is_zero (I i) = false /\ well_formed (I i) = true) ->
  default_pedersen_to_point cipher inj decode cofactor_mul is_zero well_formed zero add mul junk fuel width
    (map PUpdate pieces ++ [PExtract]) = Some [pedersen_to_point zero add mul I 63 (concat pieces)].
Proof.
  intros cipher inj P decode cofactor_mul is_zero well_formed zero add mul junk fuel width pieces I HC HI HJ.
  exact (LPedersenDefault.default_ok cipher inj decode cofactor_mul is_zero well_formed zero add mul junk HC HI HJ
           fuel width pieces I).
Qed.
Print Assumptions C73_default_pedersen.
Theorem C73_base_points_published :
  forall (P : Type) decode (cofactor_mul : P -> P) is_zero i q,
  first_valid SHA256 decode cofactor_mul (zcash_PH ++ URS) (octets_le 4 i) = Some q -> is_zero q = false ->
  find_group_hash SHA256 decode cofactor_mul is_zero (zcash_PH ++ URS) (octets_le 4 i) = Some q.
Proof. intros P decode cofactor_mul is_zero i q. exact (LFghStmt.published P SHA256 decode cofactor_mul is_zero _ _ q). Qed.
Print Assumptions C73_base_points_published.
(** 63 is the c of the Zcash specification for this order. *)
Theorem C73_chunks : is_chunks_per_segment (jubjub_order) 63.
Proof. exact (LPedersenStmt.chunks_value 100 (Z.to_N jubjub_order) 63 eq_refl ltac:(vm_compute; reflexivity)). Qed.
Print Assumptions C73_chunks.

(** Hypotheses met: the integers modulo the order of Jubjub as the group, digests with an even first octet
    decoding, and a message of 200 bits, which has two segments. *)
Example C73_hypotheses :
  PSha.cipher_computes sha256_steps 32 8 sha256_steps /\ block_ok 32 16 (repeat 5%N 16) /\
  group_laws (LPedersenDefault.toR 0) LPedersenDefault.addR /\
  (forall z g, LPedersenDefault.mulR (z mod jubjub_order)%Z g = LPedersenDefault.mulR z g) /\
  length (segments 63 (pad3 (concat [repeat true 199; [false]]))) = 2 /\
  (forall i, i < 2 ->
     first_valid SHA256 LPedersenDefault.even_point (LPedersenDefault.mulR 8) (zcash_PH ++ URS) (octets_le 4 (N.of_nat i)) =
       Some (LPedersenDefault.point_of (N.of_nat i)) /\
     (proj1_sig (LPedersenDefault.point_of (N.of_nat i)) =? 0)%Z = false /\ true = true).
Proof.
  split; [exact PSha.C58_cipher|]. split; [split; [reflexivity|repeat constructor]|].
  split; [exact LPedersenDefault.Zr_laws|]. split; [exact LPedersenDefault.mulR_mod|]. split; [reflexivity|].
  exact LPedersenDefault.example_points.
Qed.
