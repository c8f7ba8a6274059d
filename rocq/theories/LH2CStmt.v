(** Statements of PH2C.v. *)
From Coq Require Import ZArith NArith Znumtheory Arith List Bool Lia Ring.
From Verif Require Import SpecStream MPack MAcc SpecOctets SpecOctetHash SpecXmd MXmd SpecXmdHist LXmdStmt.
From Verif Require Import SpecPoseidon SpecH2C MH2CTables MH2C LPoseidonBij LFermat LZp LPrimes381 LH2CField LSwu LPoly LIso LH2CCert LH2C LH2C2.
Import ListNotations.
Local Open Scope Z_scope.
Opaque bls12_381_q.
Add Ring Fqring : rt1.
Add Ring Fq2ring : rt2.

(** ** The point of a field element is unique *)
Section U.
Context {F : ring} (HR : is_ring F).
Lemma rtU : ring_theory (@zero F) one add mul sub opp eq. Proof. exact HR. Qed.
Add Ring Fring : rtU.
Context (In : forall a b : F, mul a b = zero -> a = zero \/ b = zero) (D : forall a b : F, {a = b} + {a <> b}) (SD : forall a : F, square a \/ ~ square a).
Context (A B Z : F) (NA : A <> zero) (NZ : Z <> zero) (sgn : F -> bool) (Sgn : forall y : F, y <> zero -> sgn (opp y) = negb (sgn y)) (NR : forall x, rhs A B x <> zero).
Lemma cancel (a b c : F) : a <> zero -> mul a b = mul a c -> b = c.
Proof.
  intros N E. assert (H : mul a (sub b c) = zero). { transitivity (sub (mul a b) (mul a c)); [ring|]. rewrite E. ring. }
  destruct (In _ _ H) as [H0|H0]; [contradiction|]. transitivity (add (sub b c) c); [ring|]. rewrite H0. ring.
Qed.
Theorem sswu_unique u x y x' y' : sswu A B Z sgn u x y -> sswu A B Z sgn u x' y' -> x = x' /\ y = y'.
Proof.
  intros (x1 & H0 & H1 & H2 & H3 & H4 & H5) (x1' & G0 & G1 & G2 & G3 & G4 & G5). set (t := mul Z (mul u u)) in *. set (d := add (mul t t) t) in *.
  assert (E1 : x1 = x1').
  { destruct (D d zero) as [E|N].
    - apply (cancel (mul Z A)); [intros E0; destruct (In _ _ E0); contradiction|]. now rewrite H0, G0.
    - apply (cancel (mul A d)); [intros E0; destruct (In _ _ E0); contradiction|]. transitivity (mul (mul A x1) d); [ring|]. rewrite H1, <- G1 by exact N. ring. }
  subst x1'. assert (E : x = x'). { destruct (SD (rhs A B x1)) as [S|S]; [rewrite H2, G2 by exact S|rewrite H3, G3 by exact S]; reflexivity. }
  subst x'. split; [reflexivity|]. unfold on_curve in *. assert (P : mul (sub y y') (add y y') = zero). { transitivity (sub (mul y y) (mul y' y')); [ring|]. rewrite H4, G4. ring. }
  destruct (In _ _ P) as [Q|Q]; [transitivity (add (sub y y') y'); [ring|rewrite Q; ring]|]. exfalso.
  assert (Ey : y = opp y') by (transitivity (sub (add y y') y'); [ring|rewrite Q; ring]).
  assert (Ny : y' <> zero). { intros Ez. apply (NR x). rewrite <- G4, Ez. ring. }
  pose proof (Sgn y' Ny) as S. rewrite <- Ey, H5, G5 in S. now destruct (sgn u).
Qed.
End U.
Lemma Z1_nonzero : Z1 <> zero. Proof. intros E. apply Z1_nonsquare. rewrite E. exists zero. ring. Qed.
Lemma Z2_nonzero : Z2 <> zero. Proof. intros E. apply Z2_nonsquare. rewrite E. exists zero. ring. Qed.
Lemma unique1 u x y x' y' : sswu A1 B1 Z1 parity u x y -> sswu A1 B1 Z1 parity u x' y' -> x = x' /\ y = y'.
Proof. exact (sswu_unique Fq_ring Fq_integral Fq_dec (fp_square_dec q Pq P4) A1 B1 Z1 A1_nonzero Z1_nonzero parity parity_opp g1_no_root u x y x' y'). Qed.
Lemma unique2 u x y x' y' : sswu A2 B2 Z2 parity2 u x y -> sswu A2 B2 Z2 parity2 u x' y' -> x = x' /\ y = y'.
Proof. exact (sswu_unique Fq2_ring Fq2_integral Fq2_dec (fp2_square_dec q Pq P4) A2 B2 Z2 A2_nonzero Z2_nonzero parity2 parity2_opp g2_no_root u x y x' y'). Qed.

(** ** map_to_curve *)
Section Map1.
Context (inversed : Fq -> Fq) (is_square : Fq -> bool) (sqrt : Fq -> Fq) (is_zero : Fq -> bool)
  (HI : inverse_of_field inversed) (HS : decides_square is_square) (HQ : root_of_squares sqrt) (HZ : decides_zero is_zero)
  {G : Type} (point : Fq -> Fq -> G) (group_one : G).
Lemma map1 u X Y : sswu A1 B1 Z1 parity u X Y ->
  map_to_curve_g1 inversed is_square sqrt is_zero point group_one u = iso_map_g1 inversed is_zero point group_one X Y.
Proof.
  intros H. pose proof (swu_g1 inversed is_square sqrt is_zero HI HS HQ HZ u) as K. unfold map_to_curve_g1, swu_zeroAB.
  destruct (simple_swu inversed is_square sqrt is_zero sgn0 g1_Ai g1_Bi g1_Z u) as [x y]. destruct (unique1 _ _ _ _ _ K H) as [-> ->]. reflexivity.
Qed.
Theorem map_off u X Y : sswu A1 B1 Z1 parity u X Y -> ~ In X (map fq kernel1) ->
  exists x y, map_to_curve_g1 inversed is_square sqrt is_zero point group_one u = point x y /\ E1 x y.
Proof.
  intros H N. rewrite (map1 u X Y H). apply iso_g1_off; auto. destruct H as (x1 & _ & _ & _ & _ & C & _). exact C.
Qed.
Theorem map_in u X Y : sswu A1 B1 Z1 parity u X Y -> In X (map fq kernel1) ->
  map_to_curve_g1 inversed is_square sqrt is_zero point group_one u = group_one.
Proof. intros H N. rewrite (map1 u X Y H). now apply iso_g1_kernel. Qed.
End Map1.
Theorem map2 inversed is_square sqrt is_zero : inverse_of_field inversed -> decides_square is_square -> root_of_squares sqrt -> decides_zero is_zero ->
  forall (G : Type) (point : Fq2 -> Fq2 -> G) group_one (u : Fq2),
  exists x y, map_to_curve_g2 inversed is_square sqrt is_zero point group_one u = point x y /\ E2 x y.
Proof.
  intros HI HS HQ HZ G point group_one u. pose proof (swu_g2 inversed is_square sqrt is_zero HI HS HQ HZ u) as K. unfold map_to_curve_g2, swu_zeroAB.
  destruct (simple_swu inversed is_square sqrt is_zero sgn0_2 g2_Ai g2_Bi g2_Z u) as [X Y]. destruct K as (x1 & _ & _ & _ & _ & C & _).
  exact (iso_g2 inversed is_zero HI HZ point group_one X Y C).
Qed.

(** ** An input whose point is in the kernel *)
Definition tz (u : Z) : Z := 11 * (u * u) mod q.
Definition dz (u : Z) : Z := (tz u * tz u + tz u) mod q.
Lemma bad_input : exists Y, sswu A1 B1 Z1 parity (fq c_u) (fq c_ux) Y.
Proof.
  assert (Et : mul Z1 (mul (fq c_u) (fq c_u)) = fq (tz c_u)) by (unfold Z1, tz; rewrite fq_red, !fq_mul; reflexivity).
  assert (Ed : add (mul (fq (tz c_u)) (fq (tz c_u))) (fq (tz c_u)) = fq (dz c_u)) by (unfold dz; rewrite fq_red, fq_add, !fq_mul; reflexivity).
  assert (Nd : fq (dz c_u) <> zero) by (apply fq_zero_neq; vm_compute; reflexivity).
  assert (Ex : mul (mul A1 (fq c_ux)) (fq (dz c_u)) = opp (mul B1 (add (fq (dz c_u)) one))).
  { unfold A1, B1. change (@one Fq) with (fq 1). rewrite <- fq_add, <- !fq_mul, <- fq_opp. apply fq_eqb. vm_compute. reflexivity. }
  assert (S : square (rhs A1 B1 (fq c_ux))) by (rewrite <- fq_gz; apply (fq_square _ c_uy); vm_compute; reflexivity).
  assert (P : exists Y, on_curve A1 B1 (fq c_ux) Y /\ parity Y = parity (fq c_u)).
  { destruct S as [y Ey]. destruct (Bool.bool_dec (parity y) (parity (fq c_u))) as [E|E]; [exists y; split; [exact Ey|exact E]|]. exists (opp y). split.
    - unfold on_curve. rewrite <- Ey. ring.
    - rewrite parity_opp; [revert E; generalize (parity y), (parity (fq c_u)); intros [|] [|]; cbn; congruence|]. intros E0. apply (g1_no_root (fq c_ux)). rewrite <- Ey, E0. ring. }
  destruct P as (Y & C & Py). exists Y, (fq c_ux). rewrite Et, Ed. split; [intros; contradiction|]. split; [intros _; exact Ex|]. split; [reflexivity|]. split; [intros K; destruct (K S)|]. split; [exact C|exact Py].
Qed.
Lemma bad_in : In (fq c_ux) (map fq kernel1).
Proof. apply in_map. vm_compute. left. reflexivity. Qed.
Theorem map_kernel : exists (u X Y : Fq), sswu A1 B1 Z1 parity u X Y /\ In X (map fq kernel1) /\
  forall inversed is_square sqrt is_zero, inverse_of_field inversed -> decides_square is_square -> root_of_squares sqrt -> decides_zero is_zero ->
  forall (G : Type) (point : Fq -> Fq -> G) (group_one : G), map_to_curve_g1 inversed is_square sqrt is_zero point group_one u = group_one.
Proof.
  destruct bad_input as [Y H]. exists (fq c_u), (fq c_ux), Y. split; [exact H|]. split; [exact bad_in|]. intros inversed is_square sqrt is_zero HI HS HQ HZ G point group_one.
  exact (map_in inversed is_square sqrt is_zero HI HS HQ HZ point group_one _ _ _ H bad_in).
Qed.

(** ** The kernel *)
Definition dbl_ok (x x' : Z) : bool :=
  let g := gz x mod q in
  let s := (3 * (x * x) + 0x144698a3b8e9433d693a02c96d4982b0ea985383ee66a8d8e8981aefd881ac98936f8da0e0f97f5cf428082d584c1d) mod q in
  ((x' * (4 * g)) mod q =? (s * s - 8 * x * g) mod q) && negb (is0 (gz x)).
Lemma dbl_doubles x x' : dbl_ok x x' = true -> doubles A1 B1 (fq x) (fq x').
Proof.
  unfold dbl_ok. cbv zeta. intros H. apply andb_prop in H. destruct H as [H1 H2]. apply fq_eqb in H1. apply negb_true_iff in H2. unfold doubles. cbv zeta. rewrite <- fq_gz. split; [now apply fq_zero_neq|].
  rewrite fq_sub, !fq_mul, !fq_red, fq_add, !fq_mul in H1. fold A1 in H1.
  replace (fq 8) with (add (fq 4) (fq 4)) in H1 by (rewrite <- fq_add; reflexivity).
  replace (fq 4) with (add (add one one) (add (@one Fq) one)) in H1 by reflexivity.
  replace (fq 3) with (add (add one one) (@one Fq)) in H1 by reflexivity. exact H1.
Qed.
Theorem kernel_doubles : forall i, (i < 5)%nat -> doubles A1 B1 (fq (nth i kernel1 0)) (fq (nth ((i + 1) mod 5) kernel1 0)).
Proof.
  assert (C : forallb (fun i => dbl_ok (nth i kernel1 0) (nth ((i + 1) mod 5)%nat kernel1 0)) (seq 0 5) = true) by (vm_compute; reflexivity).
  rewrite forallb_forall in C. intros i Hi. apply dbl_doubles, C, in_seq. lia.
Qed.

(** ** Cofactors *)
Theorem cofactor1 : g1_h_eff = 1 - bls12_381_x. Proof. reflexivity. Qed.
Theorem cofactor2 : 9 * g2_h_eff = 3 * (bls12_381_x ^ 2 - 1) * g2_cofactor_9. Proof. vm_compute. reflexivity. Qed.
Definition k2 : Z := Eval vm_compute in 3 * (bls12_381_x ^ 2 - 1).
Section Cof.
Context {F G : Type} (e : G) (gadd : G -> G -> G) (gmul : G -> Z -> G) (HM : multiples e gmul).
Theorem order1 (m : F -> G) u0 u1 : (forall R, gmul R ((1 - bls12_381_x) * bls12_381_r) = e) ->
  gmul (ep_map gadd gmul m g1_h_eff u0 u1) bls12_381_r = e.
Proof. intros H. unfold ep_map, clear_cofactor. destruct HM as [M _]. rewrite M, cofactor1. apply H. Qed.
Theorem order2 (m : F -> G) n u0 u1 : 9 * n = g2_cofactor_9 * bls12_381_r -> (forall R, gmul R n = e) ->
  gmul (ep_map gadd gmul m g2_h_eff u0 u1) bls12_381_r = e.
Proof.
  intros E H. unfold ep_map, clear_cofactor. destruct HM as [M Me]. rewrite M. replace (g2_h_eff * bls12_381_r) with (n * k2).
  - rewrite <- M, H. apply Me.
  - apply (Z.mul_reg_l _ _ 9); [discriminate|]. rewrite Z.mul_assoc, E, Z.mul_assoc, cofactor2. change k2 with (3 * (bls12_381_x ^ 2 - 1)). generalize g2_cofactor_9, bls12_381_r, (3 * (bls12_381_x ^ 2 - 1)). intros. ring.
Qed.
End Cof.

(** ** The whole hash *)
Lemma h2c_run_is {F G} C inj b (elem : list N -> F) (ep : F -> F -> G) p m L count dst ops : forall a,
  h2c_run C inj b elem ep p m L count dst a ops = option_map (map (ep_of elem ep)) (h2f_run C inj b p m L count dst a ops).
Proof.
  induction ops as [|[vb xs|junks buf] ops IH]; intros a; cbn [h2c_run h2f_run]; [reflexivity|..].
  - destruct (xmd_update C inj vb a xs) as [a'|]; cbn [bind option_map]; [apply IH|reflexivity].
  - destruct (h2f_process C inj b p m L count junks dst buf a) as [[u a']|]; cbn [bind option_map fst snd]; [|reflexivity]. rewrite IH.
    destruct (h2f_run C inj b p m L count dst a' ops) as [us|]; reflexivity.
Qed.
Local Open Scope nat_scope.
Theorem whole {F G} (elem : list N -> F) gadd gmul (mtc : F -> G) h_eff :
  forall C inj H r b k p m L dst junk,
  octet_hash C inj H -> digest_octets H b -> input_block_octets C r ->
  Forall (fits 8) dst -> 16 <= length dst <= 255 -> block_ok (c_word C) (c_words C) junk ->
  accepted b k (2 * m * L) = true ->
  forall pieces junks buf, (2 * m * L) mod b = 0 -> 0 < 2 * m * L -> Forall (piece_ok C) pieces ->
  (forall i, block_ok (c_word C) (c_words C) (junks i)) -> length buf = 2 * m * L ->
  (N.of_nat (8 * length (msg_prime r (pieces_octets (c_host C) pieces) dst (2 * m * L))) < 2 ^ 64)%N ->
  exists a u0 u1, xmd_init C inj junk = Some a /\
    hash_to_field H b r p m L 2 (pieces_octets (c_host C) pieces) dst = [u0; u1] /\
    h2c_run C inj b elem (ep_map gadd gmul mtc h_eff) p m L 2 dst a (updates pieces ++ [XExtract junks buf]) =
    Some [gmul (gadd (mtc (elem u0)) (mtc (elem u1))) h_eff].
Proof.
  intros C inj H r b k p m L dst junk OH DO RO HD D16 HJ HA ps junks buf Hm Hp HP HJs LB HS.
  destruct (h2f_once C inj H r b k p m L 2 dst junk OH DO RO HD D16 HJ HA ps junks buf Hm Hp HP HJs LB HS) as (a & E & R).
  eexists a, _, _. split; [exact E|]. split; [reflexivity|]. rewrite h2c_run_is, R. reflexivity.
Qed.

(** ** Functions that meet the contracts *)
Theorem contracts1 : exists inversed is_square sqrt is_zero,
  @inverse_of_field Fq inversed /\ @decides_square Fq is_square /\ @root_of_squares Fq sqrt /\ @decides_zero Fq is_zero.
Proof.
  exists (inv_ q), (issq_ q), (root_ q), (iszero_ q).
  exact (conj (inv_ok q Pq P4) (conj (issq_ok q Pq P4) (conj (root_ok q Pq P4) (iszero_ok q)))).
Qed.
Theorem contracts2 : exists inversed is_square sqrt is_zero,
  @inverse_of_field Fq2 inversed /\ @decides_square Fq2 is_square /\ @root_of_squares Fq2 sqrt /\ @decides_zero Fq2 is_zero.
Proof.
  exists (inv2 q), (issq2 q), (root2 q), (iszero2 q).
  exact (conj (inv2_ok q Pq P4) (conj (issq2_ok q Pq P4) (conj (root2_ok q Pq P4) (iszero2_ok q)))).
Qed.
Theorem preconditions1 : (forall a b : Fq, ~ square a -> ~ square b -> square (mul a b)) /\ A1 <> zero /\ ~ square Z1 /\
  (forall x, rhs A1 B1 x <> zero) /\ (forall x, mul (mul Z1 A1) x = B1 -> square (rhs A1 B1 x)) /\
  (forall y, y <> zero -> parity (opp y) = negb (parity y)).
Proof. exact (conj (fp_index_two q Pq P4) (conj A1_nonzero (conj Z1_nonsquare (conj g1_no_root (conj g1_exc parity_opp))))). Qed.
Theorem preconditions2 : (forall a b : Fq2, ~ square a -> ~ square b -> square (mul a b)) /\ A2 <> zero /\ ~ square Z2 /\
  (forall x, rhs A2 B2 x <> zero) /\ (forall x, mul (mul Z2 A2) x = B2 -> square (rhs A2 B2 x)) /\
  (forall y, y <> zero -> parity2 (opp y) = negb (parity2 y)).
Proof. exact (conj (fp2_index_two q Pq P4) (conj A2_nonzero (conj Z2_nonsquare (conj g2_no_root (conj g2_exc parity2_opp))))). Qed.
(** A point of the auxiliary curve of G1 outside the kernel. *)
Lemma point1 : on_curve A1 B1 (fq c_ex1) (fq c_ey1) /\ ~ In (fq c_ex1) (map fq kernel1).
Proof.
  split.
  - unfold on_curve. rewrite <- fq_gz, <- fq_mul. apply fq_eqb. vm_compute. reflexivity.
  - intros H. apply in_map_iff in H. destruct H as (k & E & Hk). revert E. apply fq_neqb.
    assert (C : forallb (fun k => negb (k mod q =? c_ex1 mod q)%Z) kernel1 = true) by (vm_compute; reflexivity).
    rewrite forallb_forall in C. apply negb_true_iff. exact (C k Hk).
Qed.
Lemma point2 : on_curve A2 B2 (coef2 c_ex2) (coef2 c_ey2).
Proof. change (on_curve A2 B2 (coefi c_ex2) (coefi c_ey2)). unfold on_curve. rewrite <- c2_gzi, <- c2_mul. apply c2_eq. vm_compute. reflexivity. Qed.

Lemma zero_input : exists X Y : Fq, sswu A1 B1 Z1 parity (fq 0) X Y /\ ~ In X (map fq kernel1).
Proof.
  destruct contracts1 as (inversed & is_square & sqrt & is_zero & HI & HS & HQ & HZ).
  pose proof (swu_g1 inversed is_square sqrt is_zero HI HS HQ HZ (fq 0)) as H.
  destruct (simple_swu inversed is_square sqrt is_zero sgn0 g1_Ai g1_Bi g1_Z (fq 0)) as [X Y]. exists X, Y. split; [exact H|].
  destruct H as (x1 & H0 & _ & H1 & _).
  assert (D : mul (mul Z1 A1) x1 = B1).
  { apply H0. unfold Z1. rewrite <- !fq_mul, <- fq_add. reflexivity. }
  destruct preconditions1 as (_ & _ & _ & _ & P & _). rewrite (H1 (P x1 D)). clear H0 H1 X Y.
  intros I. apply in_map_iff in I. destruct I as (k & <- & I).
  assert (C : forallb (fun k => negb (is0 (11 * 0x144698a3b8e9433d693a02c96d4982b0ea985383ee66a8d8e8981aefd881ac98936f8da0e0f97f5cf428082d584c1d * k - 0x12e2908d11688030018b12e8753eee3b2016c1f0f24f4070a0b9c14fcef35ef55a23215a316ceaa5d1cc48e98e172be0))) kernel1 = true) by (vm_compute; reflexivity).
  rewrite forallb_forall in C. specialize (C k I). apply negb_true_iff in C.
  apply (fq_zero_neq _ C). rewrite fq_sub, !fq_mul. fold A1 B1 Z1. rewrite D. ring.
Qed.
