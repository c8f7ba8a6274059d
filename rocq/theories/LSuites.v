(** Proofs about the default suites. *)
From Coq Require Import ZArith NArith Znumtheory Arith List Bool Lia Ring String.
From Verif Require Import SpecStream SpecMD SpecMDOctets MPack MAcc MConstr MMisc SpecOctets SpecOctetHash SpecXmd MXmd SpecXmdHist MSha.
From Verif Require Import SpecPoseidon SpecH2C MH2CTables MH2C LH2CField LPrimes381 LSwu LH2CCert LH2C LH2C2 LH2CStmt LVeluStmt.
From Verif Require SpecSha SpecFgh SpecSuites MSuites LSha PMD LXmdStmt LMDOctets LMDStmt.
Import ListNotations.
Local Open Scope nat_scope.
Module S := SpecSuites.
Module M := MSuites.
Opaque bls12_381_q.
Add Ring Fqring : rt1.

(** ** SHA-256 as a hash of octet strings *)
Section Sha.
Context (cipher : list N -> list N -> list N) (inj : injector)
  (HC : LSha.computes cipher 32 8 SpecSha.sha256_steps) (HI : injector_contract BOBB 32 16 inj).
Definition comp := davies_meyer cipher (state_adder 32).
Definition mdh (os : list N) : list N := md_hash BOBB 32 16 64 256 one_marker sha2_256_iv comp (octets_bits os).
Lemma sha_params : md_params 32 16 64.
Proof. constructor; cbn; lia. Qed.
Lemma mdh_is os : Forall (fits 8) os -> (N.of_nat (8 * List.length os) < 2 ^ 64)%N -> mdh os = SpecSha.SHA256 os.
Proof.
  intros HF HL. assert (BO : block_ok 32 16 (repeat 0%N 16)). { split; [reflexivity|]. apply Forall_forall. intros x Hx. apply repeat_spec in Hx. subst x. reflexivity. }
  pose proof (PMD.C01_md_digest_octets BOBB 32 16 64 8 sha2_256_iv comp inj (repeat 0%N 16) os sha_params HI BO (or_introl eq_refl) HF HL) as A.
  pose proof (LSha.sha2_256_once cipher inj (repeat 0%N 16) os HC HI BO HF HL) as B.
  change (hash_once (PMD.md BOBB 32 16 64 8 sha2_256_iv comp inj) inj 8 (repeat 0%N 16) os) with (hash_once (sha2_256 cipher inj) inj 8 (repeat 0%N 16) os) in A.
  rewrite A in B. change (Some (mdh os) = Some (SpecSha.SHA256 os)) in B. revert B. generalize (mdh os), (SpecSha.SHA256 os). intros a b E. now inversion E.
Qed.
Lemma sha_octet_hash : octet_hash (sha2_256 cipher inj) inj SpecSha.SHA256.
Proof.
  destruct (LXmdStmt.md_octet_hash BOBB 32 16 64 8 sha2_256_iv comp inj (or_introl eq_refl) sha_params HI) as (H1 & H2 & H3 & H3' & H4).
  split; [exact H1|]. split; [exact H2|]. split; [exact H3|]. split; [exact H3'|]. intros junk ps Hj HP HS. destruct (H4 junk ps Hj HP HS) as (a & E & R).
  exists a. split; [exact E|]. rewrite <- mdh_is; [exact R|apply LGen.pieces_octets_fits|exact HS].
Qed.
Lemma sha_blocks : input_block_octets (sha2_256 cipher inj) 64. Proof. reflexivity. Qed.
End Sha.
Lemma sha_compress_length bs : forall s, List.length s = 8 -> List.length (fold_left SpecSha.sha256_compress bs s) = 8.
Proof.
  induction bs as [|b bs IH]; intros s Hs; [exact Hs|]. cbn [fold_left]. apply IH. unfold SpecSha.sha256_compress, SpecSha.feed_forward.
  rewrite map_length, combine_length, Hs. unfold SpecSha.sha256_steps. now rewrite LSha.sha2_steps_length.
Qed.
Lemma forall_firstn {A} (P : A -> Prop) n l : Forall P l -> Forall P (firstn n l).
Proof. intros H. revert n. induction H; intros [|n]; cbn; auto. Qed.
Lemma sha_digest_octets : digest_octets SpecSha.SHA256 32.
Proof.
  split; [lia|]. split; [reflexivity|]. intros os. unfold SpecSha.SHA256, md_octets.
  set (ws := fold_left _ _ _). assert (L : List.length ws = 8) by (apply sha_compress_length; reflexivity). clearbody ws. split.
  - rewrite firstn_length, (LMDOctets.to_octets_length true 4 16 ltac:(lia) ltac:(lia)), L. reflexivity.
  - apply forall_firstn, LMDOctets.to_octets_fits.
Qed.

(** ** The parameters *)
Lemma L_is : S.suite_L = 64. Proof. vm_compute. reflexivity. Qed.
Lemma dst1 : M.default_dst M.h2f_suite_g1 = S.test_DST S.G1_suite. Proof. vm_compute. reflexivity. Qed.
Lemma dst2 : M.default_dst M.h2f_suite_g2 = S.test_DST S.G2_suite. Proof. vm_compute. reflexivity. Qed.
Lemma dst_fits S : S = M.h2f_suite_g1 \/ S = M.h2f_suite_g2 -> Forall (fits 8) (M.default_dst S) /\ List.length (M.default_dst S) = 50.
Proof. intros [-> | ->]; (split; [apply LSha.all_fit; vm_compute; reflexivity|vm_compute; reflexivity]). Qed.
Definition suite_of (S : M.h2f_suite) (name : string) (m : nat) : Prop :=
  (S = M.h2f_suite_g1 /\ name = S.G1_suite /\ m = 1) \/ (S = M.h2f_suite_g2 /\ name = S.G2_suite /\ m = 2).
Lemma len_msg n msg dst len : List.length dst = 50 -> (N.of_nat (List.length msg) < 2 ^ 60)%N -> n = 64 ->
  (N.of_nat (8 * List.length (msg_prime n msg dst len)) < 2 ^ 64)%N.
Proof.
  intros Ld Lm ->. unfold msg_prime, DST_prime, I2OSP. rewrite !app_length, !rev_length, repeat_length, Ld.
  assert (O : forall k x, List.length (octets_le k x) = k) by (intros k; induction k as [|k IH]; intros x; cbn [octets_le List.length]; [reflexivity|now rewrite IH]).
  rewrite !O. change (2 ^ 64)%N with (16 * 2 ^ 60)%N. revert Lm. generalize (2 ^ 60)%N (eq_refl : (10000 <? 2 ^ 60 = true)%N). intros p Hp Lm. apply N.ltb_lt in Hp. lia.
Qed.

Section H2f.
Context (cipher : list N -> list N -> list N) (inj : injector)
  (HC : LSha.computes cipher 32 8 SpecSha.sha256_steps) (HI : injector_contract BOBB 32 16 inj).
Notation C := (sha2_256 cipher inj).
Theorem h2f_suite S name m u junk pieces junks buf : suite_of S name m ->
  block_ok 32 16 junk -> Forall (piece_ok C) pieces -> (forall i, block_ok 32 16 (junks i)) ->
  List.length buf = M.count_of u * m * 64 -> (N.of_nat (List.length (pieces_octets host_order pieces)) < 2 ^ 60)%N ->
  M.h2f_compiles S u = true /\
  exists a, xmd_init C inj junk = Some a /\
    M.h2f_default cipher inj S u a (updates pieces ++ [XExtract junks buf]) =
    Some [S.suite_hash_to_field m (M.count_of u) (pieces_octets host_order pieces) (S.test_DST name)].
Proof.
  intros HS HJ HP HJs LB HL.
  assert (E : M.suite_m S = m /\ M.suite_L S = 64 /\ M.suite_k S = 128 /\ M.default_dst S = S.test_DST name).
  { destruct HS as [(-> & -> & ->)|(-> & -> & ->)]; (split; [reflexivity|]; split; [reflexivity|]; split; [reflexivity|]); [exact dst1|exact dst2]. }
  destruct E as (Em & EL & Ek & Ed).
  assert (D : S = M.h2f_suite_g1 \/ S = M.h2f_suite_g2) by (destruct HS as [[? _]|[? _]]; auto). destruct (dst_fits S D) as [Df Dl].
  assert (Hm : m = 1 \/ m = 2) by (destruct HS as [(_ & _ & ?)|(_ & _ & ?)]; auto).
  assert (HA : accepted 32 128 (M.count_of u * m * 64) = true) by (destruct u, Hm as [-> | ->]; reflexivity).
  split. { unfold M.h2f_compiles. rewrite Em, EL, Ek, HA. destruct u; reflexivity. }
  assert (H0 : (M.count_of u * m * 64) mod 32 = 0) by (destruct u, Hm as [-> | ->]; reflexivity).
  assert (H1 : 0 < M.count_of u * m * 64) by (destruct u, Hm as [-> | ->]; cbn; lia).
  unfold M.h2f_default. rewrite Em, EL, Ed. rewrite Ed in Df, Dl. unfold S.suite_hash_to_field. rewrite L_is.
  apply (LXmdStmt.h2f_once C inj SpecSha.SHA256 64 32 128 (Z.to_N bls12_381_q) m 64 (M.count_of u) (S.test_DST name) junk
    (sha_octet_hash cipher inj HC HI) sha_digest_octets (sha_blocks cipher inj)); auto.
  - rewrite Dl. lia.
  - now apply len_msg.
Qed.
End H2f.

(** ** hash_to_curve *)
Lemma htf_shape1 msg dst : exists c0 c1, S.suite_hash_to_field 1 2 msg dst = [[c0]; [c1]].
Proof. eexists; eexists; reflexivity. Qed.
Lemma htf_shape2 msg dst : exists a0 b0 a1 b1, S.suite_hash_to_field 2 2 msg dst = [[a0; b0]; [a1; b1]].
Proof. do 4 eexists; reflexivity. Qed.
Lemma heff2 : g2_h_eff = S.G2_h_eff. Proof. vm_compute. reflexivity. Qed.
Section H2c.
Context (cipher : list N -> list N -> list N) (inj : injector)
  (HC : LSha.computes cipher 32 8 SpecSha.sha256_steps) (HI : injector_contract BOBB 32 16 inj).
Notation C := (sha2_256 cipher inj).
Context (junk : list N) (pieces : list (nat * list N)) (junks : nat -> list N) (buf : list N)
  (HJ : block_ok 32 16 junk) (HP : Forall (piece_ok C) pieces) (HJs : forall i, block_ok 32 16 (junks i))
  (HL : (N.of_nat (List.length (pieces_octets host_order pieces)) < 2 ^ 60)%N).
Notation msg := (pieces_octets host_order pieces).
Theorem h2c_g1 inversed is_square sqrt is_zero :
  inverse_of_field inversed -> decides_square is_square -> root_of_squares sqrt -> decides_zero is_zero ->
  forall (G : Type) (point : Fq -> Fq -> G) group_one e gadd gmul,
  List.length buf = 128 ->
  (forall c X Y, In [c] (S.suite_hash_to_field 1 2 msg (S.test_DST S.G1_suite)) ->
    sswu A1 B1 Z1 parity (fq (Z.of_N c)) X Y -> ~ In X (map fq kernel1)) ->
  exists a P, xmd_init C inj junk = Some a /\
    M.h2c_default_g1 cipher inj inversed is_square sqrt is_zero point group_one gadd gmul a (updates pieces ++ [XExtract junks buf]) = Some [P] /\
    S.hash_to_G1 inversed point e gadd gmul msg (S.test_DST S.G1_suite) P.
Proof.
  intros Hi Hs Hq Hz G point g e gadd gmul LB NK.
  destruct (h2f_suite cipher inj HC HI M.h2f_suite_g1 S.G1_suite 1 M.uniform_count junk pieces junks buf (or_introl (conj eq_refl (conj eq_refl eq_refl))) HJ HP HJs LB HL) as (_ & a & E & R).
  destruct (htf_shape1 msg (S.test_DST S.G1_suite)) as (c0 & c1 & EU). change (M.count_of M.uniform_count) with 2 in R. rewrite EU in R.
  assert (Q : forall c, In [c] [[c0]; [c1]] -> S.maps_to_G1 inversed point e (fq (Z.of_N c)) (map_to_curve_g1 inversed is_square sqrt is_zero point g (fq (Z.of_N c)))).
  { intros c Hc. pose proof (swu_g1 inversed is_square sqrt is_zero Hi Hs Hq Hz (fq (Z.of_N c))) as K.
    destruct (simple_swu inversed is_square sqrt is_zero sgn0 g1_Ai g1_Bi g1_Z (fq (Z.of_N c))) as [X Y]. exists X, Y. split; [exact K|]. right.
    assert (N : ~ In X (map fq kernel1)) by (apply (NK c X Y); [rewrite EU; exact Hc|exact K]). split; [exact N|].
    pose proof (map_g1 inversed is_square sqrt is_zero Hi Hs Hq Hz G point g (fq (Z.of_N c)) X Y K N) as V. destruct (isogeny1 inversed X Y) as [x y]. exact (proj1 V). }
  eexists a, _. split; [exact E|]. split.
  - unfold M.h2c_default_g1. rewrite h2c_run_is. unfold M.h2f_default in R. rewrite R. reflexivity.
  - exists c0, c1. eexists; eexists. split; [exact EU|]. split; [apply (Q c0); now left|]. split; [apply (Q c1); right; now left|]. reflexivity.
Qed.
Theorem h2c_g2 inversed is_square sqrt is_zero :
  inverse_of_field inversed -> decides_square is_square -> root_of_squares sqrt -> decides_zero is_zero ->
  forall (G : Type) (point : Fq2 -> Fq2 -> G) group_one gadd gmul,
  List.length buf = 256 ->
  exists a P, xmd_init C inj junk = Some a /\
    M.h2c_default_g2 cipher inj inversed is_square sqrt is_zero point group_one gadd gmul a (updates pieces ++ [XExtract junks buf]) = Some [P] /\
    S.hash_to_G2 inversed point gadd gmul msg (S.test_DST S.G2_suite) P.
Proof.
  intros Hi Hs Hq Hz G point g gadd gmul LB.
  destruct (h2f_suite cipher inj HC HI M.h2f_suite_g2 S.G2_suite 2 M.uniform_count junk pieces junks buf (or_intror (conj eq_refl (conj eq_refl eq_refl))) HJ HP HJs LB HL) as (_ & a & E & R).
  destruct (htf_shape2 msg (S.test_DST S.G2_suite)) as (a0 & b0 & a1 & b1 & EU). change (M.count_of M.uniform_count) with 2 in R. rewrite EU in R.
  assert (Q : forall u, S.maps_to_G2 inversed point u (map_to_curve_g2 inversed is_square sqrt is_zero point g u)).
  { intros u. destruct (map_g2 inversed is_square sqrt is_zero Hi Hs Hq Hz G point g u) as (X & Y & K & V). exists X, Y. split; [exact K|].
    destruct (isogeny2 inversed X Y) as [x y]. exact (proj1 V). }
  eexists a, _. split; [exact E|]. split.
  - unfold M.h2c_default_g2. rewrite h2c_run_is. unfold M.h2f_default in R. rewrite R. reflexivity.
  - exists a0, b0, a1, b1. eexists; eexists. split; [exact EU|]. split; [apply Q|]. split; [apply Q|]. rewrite <- heff2. reflexivity.
Qed.
End H2c.

(** ** For PSuites.v *)
Theorem h2f_both : forall cipher inj, LSha.computes cipher 32 8 SpecSha.sha256_steps -> injector_contract BOBB 32 16 inj ->
  forall suite name m, In (suite, name, m) [(M.h2f_suite_g1, S.G1_suite, 1); (M.h2f_suite_g2, S.G2_suite, 2)] ->
  forall u count, In (u, count) [(M.nonuniform_count, 1); (M.uniform_count, 2)] ->
  forall junk pieces junks buf, block_ok 32 16 junk -> Forall (piece_ok (sha2_256 cipher inj)) pieces ->
  (forall i, block_ok 32 16 (junks i)) -> List.length buf = count * m * 64 ->
  (N.of_nat (List.length (pieces_octets host_order pieces)) < 2 ^ 60)%N ->
  M.h2f_compiles suite u = true /\
  exists a, xmd_init (sha2_256 cipher inj) inj junk = Some a /\
    M.h2f_default cipher inj suite u a (updates pieces ++ [XExtract junks buf]) =
    Some [S.suite_hash_to_field m count (pieces_octets host_order pieces) (S.test_DST name)].
Proof.
  intros cipher inj HC HI S name m HS u count HU junk ps junks buf. assert (SO : suite_of S name m).
  { destruct HS as [E|[E|[]]]; [left|right]; (split; [now inversion E|]; split; now inversion E). }
  assert (EC : count = M.count_of u) by (destruct HU as [E|[E|[]]]; inversion E; reflexivity). rewrite EC.
  intros HJ HP HJs LB HL. exact (h2f_suite cipher inj HC HI S name m u junk ps junks buf SO HJ HP HJs LB HL).
Qed.
Lemma g1_unique : forall (G : Type) inv (point : Fq -> Fq -> G) e gadd gmul msg DST P P',
    S.hash_to_G1 inv point e gadd gmul msg DST P -> S.hash_to_G1 inv point e gadd gmul msg DST P' -> P = P'.
Proof.
  intros G inv point e gadd gmul msg DST P P' (c0 & c1 & Q0 & Q1 & E & M0 & M1 & EP) (c0' & c1' & Q0' & Q1' & E' & M0' & M1' & EP').
  rewrite E in E'. assert (Ec : c0 = c0' /\ c1 = c1') by (inversion E'; auto). destruct Ec as [<- <-].
  assert (U : forall u Q Q', S.maps_to_G1 inv point e u Q -> S.maps_to_G1 inv point e u Q' -> Q = Q').
  { intros u Q Q' (X & Y & K & D) (X' & Y' & K' & D'). destruct (unique1 u X Y X' Y' K K') as [-> ->]. destruct D as [[D ->]|[D ->]], D' as [[D' ->]|[D' ->]]; tauto. }
  rewrite EP, EP', (U _ _ _ M0 M0'), (U _ _ _ M1 M1'). reflexivity.
Qed.
Lemma g2_unique : forall (G : Type) inv (point : Fq2 -> Fq2 -> G) gadd gmul msg DST P P',
    S.hash_to_G2 inv point gadd gmul msg DST P -> S.hash_to_G2 inv point gadd gmul msg DST P' -> P = P'.
Proof.
  intros G inv point gadd gmul msg DST P P' (a0 & b0 & a1 & b1 & Q0 & Q1 & E & M0 & M1 & EP) (a0' & b0' & a1' & b1' & Q0' & Q1' & E' & M0' & M1' & EP').
  rewrite E in E'. assert (Ec : a0 = a0' /\ b0 = b0' /\ a1 = a1' /\ b1 = b1') by (inversion E'; auto). destruct Ec as (<- & <- & <- & <-).
  assert (U : forall u Q Q', S.maps_to_G2 inv point u Q -> S.maps_to_G2 inv point u Q' -> Q = Q').
  { intros u Q Q' (X & Y & K & ->) (X' & Y' & K' & ->). destruct (unique2 u X Y X' Y' K K') as [-> ->]. reflexivity. }
  rewrite EP, EP', (U _ _ _ M0 M0'), (U _ _ _ M1 M1'). reflexivity.
Qed.

(** ** A message none of whose points is in the kernel *)
Definition c_abc_u0 : N := 0xd921c33f2bad966478a03ca35d05719bdf92d347557ea166e5bba579eea9b83e9afa5c088573c2281410369fbd32951.
Definition c_abc_u1 : N := 0x3574a00b109ada2f26a37a91f9d1e740dffd8d69ec0c35e1e9f4652c7dba61123e9dd2e76c655d956e2b3462611139.
Definition c_abc_x0 : Z := 0x387b6d4bf7afea41cfeb518a44bd3b84598a81256dbbc19b1fac9db312d775b1fe6f721b7326a487ee6882be4c001d.
Definition c_abc_x1 : Z := 0x83c9ac6dc78720c2880ac44e5b369f0e51d92a1f9ec4671f82d6c996cd82341e2cae904539582e148e688a730c436a4.

Local Open Scope Z_scope.
Lemma htf_abc : S.suite_hash_to_field 1 2 [97; 98; 99]%N (S.test_DST S.G1_suite) = [[c_abc_u0]; [c_abc_u1]].
Proof. vm_compute. reflexivity. Qed.
Definition xok (u x : Z) : bool :=
  let t := 11 * (u * u) in
  let d := t * t + t in
  negb (is0 d) && is0 (0x144698a3b8e9433d693a02c96d4982b0ea985383ee66a8d8e8981aefd881ac98936f8da0e0f97f5cf428082d584c1d * x * d -
     - (0x12e2908d11688030018b12e8753eee3b2016c1f0f24f4070a0b9c14fcef35ef55a23215a316ceaa5d1cc48e98e172be0 * (d + 1))) &&
  forallb (fun k => negb (is0 (x - k)) && negb (is0 (t * x - k))) kernel1.
Lemma off_kernel u x X Y : xok u x = true -> sswu A1 B1 Z1 parity (fq u) X Y -> ~ In X (map fq kernel1).
Proof.
  unfold xok. cbv zeta. intros H (x1 & _ & H1 & H2 & H3 & _). apply andb_prop in H. destruct H as [H HK]. apply andb_prop in H. destruct H as [HD HX].
  assert (Et : mul Z1 (mul (fq u) (fq u)) = fq (11 * (u * u))) by (rewrite !fq_mul; reflexivity).
  rewrite Et in *. set (t := 11 * (u * u)) in *. replace (add (mul (fq t) (fq t)) (fq t)) with (fq (t * t + t)) in * by (rewrite fq_add, fq_mul; reflexivity).
  set (d := t * t + t) in *. apply negb_true_iff in HD. apply fq_zero_neq in HD. apply fq_is0 in HX.
  specialize (H1 HD). assert (E1 : x1 = fq x).
  { apply (cancel Fq_ring Fq_integral (mul A1 (fq d))).
    - intros E. destruct (Fq_integral _ _ E) as [E0|E0]; [now apply A1_nonzero|contradiction].
    - transitivity (mul (mul A1 x1) (fq d)); [generalize A1, (fq d); intros; ring|]. rewrite H1.
      rewrite fq_sub, fq_opp, !fq_mul, fq_add in HX. fold A1 B1 in HX. change (fq 1) with (@one Fq) in HX. symmetry. apply sub_zero1. rewrite <- HX.
      generalize A1, B1, (fq d), (fq x). intros. ring. }
  subst x1. rewrite forallb_forall in HK. intros HI. apply in_map_iff in HI. destruct HI as (k & Ek & Hk). specialize (HK k Hk). apply andb_prop in HK. destruct HK as [K1 K2].
  apply negb_true_iff in K1, K2. apply fq_zero_neq in K1, K2. rewrite fq_sub in K1, K2. rewrite fq_mul in K2.
  destruct (fp_square_dec bls12_381_q Pq P4 (rhs A1 B1 (fq x))) as [S|S].
  - apply K1. rewrite <- (H2 S), <- Ek. generalize (fq k). intros. ring.
  - apply K2. rewrite <- (H3 S), <- Ek. generalize (fq k). intros. ring.
Qed.
Lemma abc_off : forall c X Y, In [c] (S.suite_hash_to_field 1 2 [97; 98; 99]%N (S.test_DST S.G1_suite)) ->
    sswu A1 B1 Z1 parity (fq (Z.of_N c)) X Y -> ~ In X (map fq kernel1).
Proof.
  intros c X Y Hc. rewrite htf_abc in Hc. destruct Hc as [E|[E|[]]].
  - assert (Ec : c = c_abc_u0) by (inversion E; reflexivity). rewrite Ec. apply (off_kernel _ c_abc_x0). vm_compute. reflexivity.
  - assert (Ec : c = c_abc_u1) by (inversion E; reflexivity). rewrite Ec. apply (off_kernel _ c_abc_x1). vm_compute. reflexivity.
Qed.
