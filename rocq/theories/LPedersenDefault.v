(** The default Pedersen hash: proofs for C73. *)
From Coq Require Import NArith ZArith Arith List Bool Lia ZifyBool ZifyNat ZifyN.
From Verif Require Import SpecStream MPack MAcc SpecOctets SpecOctetHash SpecFgh SpecPedersen MFgh MPedersen MPedersenDefault.
From Verif Require Import LFghStmt LMDStmt SpecSha.
From Verif Require MSha LSha LSuites LPedersenStmt PFgh.
Import ListNotations.
Ltac Zify.zify_post_hook ::= Z.div_mod_to_equations.

Lemma chunks_63 : default_chunks = 63%N. Proof. vm_compute. reflexivity. Qed.

(** What find_group_hash returns is a cofactor multiple. *)
Lemma process_shape (C : construction) inj {P : Type} (decode : list N -> option P) cofactor_mul is_zero well_formed junk dst fuel i q :
  fgh_once C inj decode cofactor_mul is_zero well_formed fuel junk dst 32 [i] = Returned q ->
  exists q0, q = cofactor_mul q0.
Proof.
  unfold fgh_once. destruct (fgh_init C inj junk dst) as [a|]; [|discriminate]. destruct (hash_into C inj 32 a [i]) as [a'|]; [|discriminate].
  unfold fgh_process. destruct (fgh_loop _ _ _ _ _ _) as [| |q0]; try discriminate.
  cbv zeta. destruct (is_zero _); [discriminate|]. destruct (negb _); [discriminate|]. intros E. exists q0. now injection E as <-.
Qed.

Lemma once_pieces (C : construction) inj {P : Type} (decode : list N -> option P) cofactor_mul is_zero well_formed junk dst fuel i a a' r :
  fgh_init C inj junk dst = Some a -> hash_pieces C inj a [(32, [i])] = Some a' ->
  fgh_process C inj decode cofactor_mul is_zero well_formed fuel a' = r ->
  fgh_once C inj decode cofactor_mul is_zero well_formed fuel junk dst 32 [i] = r.
Proof.
  intros E1 E2 E3. unfold fgh_once. rewrite E1. cbn [hash_pieces] in E2.
  destruct (hash_into C inj 32 a [i]) as [b|]; [|discriminate]. injection E2 as ->. exact E3.
Qed.

Section D.
Context (cipher : list N -> list N -> list N) (inj : injector).
Context {P : Type} (decode : list N -> option P) (cofactor_mul : P -> P) (is_zero well_formed : P -> bool).
Context (zero : P) (add : P -> P -> P) (mul : Z -> P -> P) (junk : N -> list N).
Context (HC : LSha.computes cipher 32 8 sha256_steps) (HI : injector_contract BOBB 32 16 inj).
Context (HJ : forall i, block_ok 32 16 (junk i)).
Notation gen := (generate_base_point cipher inj decode cofactor_mul is_zero well_formed junk).
Notation C := (MSha.sha2_256 cipher inj).

Lemma dst_fits : Forall (fits 8) default_dst.
Proof. apply LSha.all_fit. reflexivity. Qed.
Lemma generated fuel i q : (i < 2 ^ 32)%N -> 256 <= fuel ->
  first_valid SHA256 decode cofactor_mul (zcash_PH ++ URS) (octets_le 4 i) = Some q ->
  is_zero q = false -> well_formed q = true -> gen fuel i = Returned q.
Proof.
  intros Hi Hf E Hz Hw.
  assert (EP : pieces_octets (c_host C) [(32, [i])] = octets_le 4 i).
  { change (c_host C) with LOBB. unfold pieces_octets, range_octets. cbn [flat_map fst snd octets_in_order].
    change (32 / 8) with 4. now rewrite !app_nil_r. }
  destruct (PFgh.C35_first_valid_partial C inj SHA256 P decode cofactor_mul is_zero well_formed (junk i) default_dst [(32, [i])])
    with (q := q) as (a & a' & E1 & E2 & E3).
  - exact (LSuites.sha_octet_hash cipher inj HC HI).
  - apply HJ.
  - exact dst_fits.
  - constructor; [|constructor]. unfold piece_ok. cbn [fst snd]. split; [reflexivity|]. split; [lia|]. split; [reflexivity|].
    constructor; [exact Hi|constructor].
  - rewrite EP, octets_le_length. reflexivity.
  - rewrite EP. exact E.
  - exact Hz.
  - exact Hw.
  - exact (once_pieces C inj decode cofactor_mul is_zero well_formed (junk i) default_dst fuel i a a' _ E1 E2 (E3 fuel Hf)).
Qed.
Notation base := (base_point cipher inj decode cofactor_mul is_zero well_formed zero junk).
Lemma gen_eq fuel i : gen fuel i = fgh_once C inj decode cofactor_mul is_zero well_formed fuel (junk i) default_dst 32 [i].
Proof. unfold generate_base_point. reflexivity. Qed.
Lemma base_shape fuel i : base fuel i = zero \/ exists q0, base fuel i = cofactor_mul q0.
Proof.
  unfold base_point. destruct (gen fuel i) as [| |q] eqn:E; [now left|now left|right].
  rewrite gen_eq in E. exact (process_shape C inj decode cofactor_mul is_zero well_formed (junk i) default_dst fuel i q E).
Qed.
Lemma sum_ext (I J : nat -> P) segs : forall i, (forall k, i <= k < i + length segs -> I k = J k) ->
  sum_segments zero add mul I i segs = sum_segments zero add mul J i segs.
Proof.
  induction segs as [|s r IH]; intros i H; [reflexivity|]. cbn [sum_segments]. cbn [length] in H.
  rewrite (H i) by lia. f_equal. apply IH. intros k Hk. apply H. lia.
Qed.
Lemma groups_length {A} n (l : list A) : 0 < n -> length (groups n l) = (length l + n - 1) / n.
Proof.
  intros H. unfold groups. rewrite app_length. unfold chunks. rewrite LStream.chunk_length.
  replace (length (if length l mod n =? 0 then [] else [skipn (length l / n * n) l])) with (if length l mod n =? 0 then 0 else 1)
    by (destruct (_ =? 0); reflexivity).
  generalize (length l). clear l. intros L.
  pose proof (Nat.div_mod L n ltac:(lia)) as D. pose proof (Nat.mod_upper_bound L n ltac:(lia)) as B.
  set (q := L / n) in *. set (r := L mod n) in *. clearbody q r.
  destruct (Nat.eqb_spec r 0) as [E|E].
  - apply (Nat.div_unique _ n _ (n - 1)); nia.
  - apply (Nat.div_unique _ n _ (r - 1)); nia.
Qed.
Lemma order_ok : Z.of_N jubjub_r = jubjub_order.
Proof. reflexivity. Qed.
Lemma default_ok fuel width pieces (I : nat -> P) :
  256 <= fuel -> 249 <= width -> group_laws zero add ->
  (forall z, mul (z mod jubjub_order) zero = mul z zero) ->
  (forall q z, mul (z mod jubjub_order) (cofactor_mul q) = mul z (cofactor_mul q)) ->
  (N.of_nat (length (concat pieces)) <= 189 * 2 ^ 32)%N ->
  (forall i, i < length (segments 63 (pad3 (concat pieces))) ->
     first_valid SHA256 decode cofactor_mul (zcash_PH ++ URS) (octets_le 4 (N.of_nat i)) = Some (I i) /\
     is_zero (I i) = false /\ well_formed (I i) = true) ->
  default_pedersen_to_point cipher inj decode cofactor_mul is_zero well_formed zero add mul junk fuel width
    (map PUpdate pieces ++ [PExtract]) = Some [pedersen_to_point zero add mul I 63 (concat pieces)].
Proof.
  intros Hf Hw GL M0 M1 L HB. unfold default_pedersen_to_point. rewrite chunks_63, order_ok. change 63%N with (N.of_nat 63).
  assert (LP : (N.of_nat (length (pad3 (concat pieces))) <= 189 * 2 ^ 32)%N).
  { unfold pad3. rewrite app_length, repeat_length. destruct (concat pieces) as [|b l]; [cbn [length]; lia|]. lia. }
  rewrite LPedersenStmt.once; auto.
  - f_equal. f_equal. unfold pedersen_to_point. apply sum_ext. intros k Hk. cbn [plus] in Hk.
    destruct (HB k ltac:(lia)) as (E & Z0 & W). unfold base_point.
    rewrite (generated fuel (N.of_nat k) (I k)); auto.
    assert (LS : length (segments 63 (pad3 (concat pieces))) = ((length (pad3 (concat pieces)) + 3 - 1) / 3 + 63 - 1) / 63).
    { unfold segments. rewrite groups_length, groups_length by lia. reflexivity. }
    rewrite LS in Hk. lia.
  - reflexivity.
  - intros i z. destruct (base_shape fuel i) as [->|[q ->]]; auto.
  - lia.
  - apply Z.lt_le_trans with (2 ^ 249)%Z; [reflexivity|]. apply Z.pow_le_mono_r; lia.
  - lia.
Qed.
End D.

(** The integers modulo r as a group. *)
Definition R : Z := jubjub_order.
Definition Zr : Type := { x : Z | (x mod R =? x)%Z = true }.
Lemma Zr_mod x : ((x mod R) mod R =? x mod R)%Z = true.
Proof. apply Z.eqb_eq, Z.mod_mod. discriminate. Qed.
Definition toR (x : Z) : Zr := exist _ (x mod R)%Z (Zr_mod x).
Definition addR (x y : Zr) : Zr := toR (proj1_sig x + proj1_sig y).
Definition mulR (z : Z) (x : Zr) : Zr := toR (z * proj1_sig x).
Lemma Zr_eq (x y : Zr) : proj1_sig x = proj1_sig y -> x = y.
Proof. destruct x as [x Hx], y as [y Hy]. cbn. intros E. subst y. f_equal. apply Eqdep_dec.UIP_dec. apply bool_dec. Qed.
Lemma Zr_laws : group_laws (toR 0) addR.
Proof.
  assert (R0 : R <> 0%Z) by discriminate.
  constructor.
  - intros x y z. apply Zr_eq. unfold addR, toR. cbn [proj1_sig].
    rewrite Z.add_mod_idemp_r, Z.add_mod_idemp_l by exact R0. now rewrite Z.add_assoc.
  - intros x y. apply Zr_eq. unfold addR, toR. cbn [proj1_sig]. now rewrite Z.add_comm.
  - intros [x Hx]. apply Zr_eq. unfold addR, toR. cbn [proj1_sig]. apply Z.eqb_eq in Hx. rewrite Z.mod_0_l, Z.add_0_l by exact R0. exact Hx.
Qed.
Lemma mulR_mod z x : mulR (z mod R) x = mulR z x.
Proof. apply Zr_eq. unfold mulR, toR. cbn [proj1_sig]. apply Z.mul_mod_idemp_l. discriminate. Qed.
Definition even_point (d : list N) : option Zr :=
  if N.even (hd 0%N d) then Some (toR (Z.of_N (SpecWords.le_value d))) else None.
Definition point_of (i : N) : Zr :=
  match first_valid SHA256 even_point (mulR 8) (zcash_PH ++ URS) (octets_le 4 i) with Some q => q | None => toR 0 end.
Lemma example_points : forall i, i < 2 ->
  first_valid SHA256 even_point (mulR 8) (zcash_PH ++ URS) (octets_le 4 (N.of_nat i)) = Some (point_of (N.of_nat i)) /\
  (proj1_sig (point_of (N.of_nat i)) =? 0)%Z = false /\ true = true.
Proof.
  assert (K : forallb (fun i => match first_valid SHA256 even_point (mulR 8) (zcash_PH ++ URS) (octets_le 4 i) with
                                | Some q => negb (proj1_sig q =? 0)%Z | None => false end) [0; 1]%N = true)
    by (vm_compute; reflexivity).
  rewrite forallb_forall in K. intros i Hi. unfold point_of.
  assert (I : In (N.of_nat i) [0; 1]%N) by (destruct i as [|[|i]]; [now left|now right; left|lia]).
  specialize (K _ I). destruct (first_valid _ _ _ _ _) as [q|]; [|discriminate].
  split; [reflexivity|]. split; [|reflexivity]. now apply negb_true_iff.
Qed.
