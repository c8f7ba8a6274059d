(** Poseidon's matrices are Cauchy matrices, hence MDS. *)
From Coq Require Import NArith ZArith Znumtheory Arith List Bool Lia Ring_theory Ring.
From Verif Require Import SpecStream LStream SpecPoseidon MPoseidonTables MPoseidon LPoseidon LPoseidonBij LFermat LZp LPoseidonInst.
Import ListNotations.

Section Cauchy.
Context {F : ring} (R : is_ring F) (integral : forall a b : F, mul a b = zero -> a = zero \/ b = zero).
Lemma ring_C : ring_theory (@zero F) one add mul sub opp eq. Proof. exact R. Qed.
Add Ring RC : ring_C.
Lemma nonzero_cancel (a b : F) : a <> zero -> mul a b = zero -> b = zero.
Proof. intros N E. now destruct (integral a b E). Qed.
Lemma sub_eq (a b : F) : sub a b = zero -> a = b.
Proof. intros E. transitivity (add (sub a b) b); [ring|]. rewrite E. ring. Qed.
Lemma cauchy_kernel (x y : nat -> F) (m : nat -> nat -> F) : forall J I v, NoDup J -> NoDup I -> length I = length J ->
  (forall i j, In i I -> In j J -> mul (add (x i) (y j)) (m i j) = one) ->
  (forall i k, In i I -> In k I -> x i = x k -> i = k) -> (forall j k, In j J -> In k J -> y j = y k -> j = k) ->
  (forall i, In i I -> sum (map (fun j => mul (v j) (m i j)) J) = zero) -> forall j, In j J -> v j = zero.
Proof.
  induction J as [|k J IH]; intros [|n I] v NJ NI L HM HX HY HS; try discriminate L; [intros j []|].
  apply NoDup_cons_iff in NJ. apply NoDup_cons_iff in NI. destruct NJ as [KJ NJ], NI as [NNI NI].
  set (w := fun j => mul (v j) (m n j)).
  assert (W : forall j, In j (k :: J) -> v j = mul (w j) (add (x n) (y j))).
  { intros j Hj. unfold w. transitivity (mul (v j) (mul (add (x n) (y j)) (m n j))); [|ring]. rewrite HM by (auto; now left). ring. }
  pose proof (HS n (or_introl eq_refl)) as S0. change (sum (map w (k :: J)) = zero) in S0.
  assert (S1 : forall i, In i I -> sum (map (fun j => mul (w j) (m i j)) (k :: J)) = zero).
  { intros i Hi. apply (nonzero_cancel (sub (x n) (x i))).
    - intros E. apply sub_eq in E. apply NNI. rewrite (HX n i); auto; [now left|now right].
    - transitivity (add (sum (map w (k :: J))) (mul (sub (x n) (x i)) (sum (map (fun j => mul (w j) (m i j)) (k :: J))))); [rewrite S0; ring|].
      rewrite <- (sum_scale R), <- (sum_add R). rewrite <- (HS i (or_intror Hi)). apply sum_ext. intros j Hj. rewrite (W j Hj).
      transitivity (add (mul (w j) (mul (add (x i) (y j)) (m i j))) (mul (sub (x n) (x i)) (mul (w j) (m i j)))); [|ring].
      rewrite HM by (auto; now right). ring. }
  assert (S2 : forall i, In i I -> sum (map (fun j => mul (mul (w j) (sub (y k) (y j))) (m i j)) J) = zero).
  { intros i Hi. transitivity (sum (map (fun j => mul (mul (w j) (sub (y k) (y j))) (m i j)) (k :: J))).
    { cbn [map]. unfold sum. cbn [fold_right]. ring. }
    transitivity (add (mul (opp one) (sum (map w (k :: J)))) (mul (add (x i) (y k)) (sum (map (fun j => mul (w j) (m i j)) (k :: J))))).
    2: { rewrite S0, S1 by auto. ring. }
    rewrite <- !(sum_scale R), <- (sum_add R). apply sum_ext. intros j Hj.
    transitivity (add (mul (opp one) (mul (w j) (mul (add (x i) (y j)) (m i j)))) (mul (add (x i) (y k)) (mul (w j) (m i j)))); [ring|].
    rewrite HM by (auto; now right). ring. }
  assert (V : forall j, In j J -> w j = zero).
  { intros j Hj.
    assert (U : mul (w j) (sub (y k) (y j)) = zero).
    { apply (IH I (fun j => mul (w j) (sub (y k) (y j)))); auto.
      - intros i j' Hi Hj'. apply HM; now right.
      - intros i i' Hi Hi'. apply HX; now right.
      - intros j1 j2 H1 H2. apply HY; now right. }
    apply (nonzero_cancel (sub (y k) (y j))); [|rewrite <- U; ring].
    intros E. apply sub_eq in E. apply KJ. rewrite (HY k j); auto; [now left|now right]. }
  assert (V0 : w k = zero).
  { cbn [map] in S0. unfold sum in S0. cbn [fold_right] in S0. fold (sum (map w J)) in S0.
    rewrite (sum_ext w (fun _ => zero) J V), (sum_zero R) in S0. rewrite <- S0. ring. }
  intros j Hj. rewrite (W j Hj). destruct Hj as [<-|Hj]; [rewrite V0|rewrite (V j Hj)]; ring.
Qed.
Lemma sum_mul_zero (a : F) : mul zero a = zero. Proof. ring. Qed.
Lemma add_cancel (a b c : F) : add a c = add b c -> a = b.
Proof. intros E. transitivity (sub (add a c) c); [ring|]. rewrite E. ring. Qed.
Lemma sub_same (a : F) : sub a a = zero. Proof. ring. Qed.
Lemma sum_sub (f a b : nat -> F) l :
  sum (map (fun j => mul (sub (a j) (b j)) (f j)) l) = sub (sum (map (fun j => mul (f j) (a j)) l)) (sum (map (fun j => mul (f j) (b j)) l)).
Proof. induction l as [|i l IH]; unfold sum in *; cbn [map fold_right]; [ring|]. rewrite IH. ring. Qed.
End Cauchy.

(** ** The check *)
Definition check_cauchy (p : Z) (t : nat) (xs ys : list Z) (m : list (list N)) : bool :=
  forallb (fun i => forallb (fun j => Z.eqb (((nth i xs 0 + nth j ys 0) * Z.of_N (nth j (nth i m []) 0%N)) mod p) 1) (seq 0 t)) (seq 0 t) &&
  forallb (fun i => forallb (fun j => (i =? j)%nat ||
     negb (Z.eqb (nth i xs 0 mod p) (nth j xs 0 mod p)) && negb (Z.eqb (nth i ys 0 mod p) (nth j ys 0 mod p))) (seq 0 t)) (seq 0 t).
Definition bn254_2_xs : list Z :=
  [6338947626529263952468369453009402882967957847559198366251330709007913937113;
   7307990672629511442798503222869799525009504569890395100896196965642252332073;
   16812361380411334668848254989987409857473771929715440607994623153198899655900].
Definition bn254_2_ys : list Z :=
  [0;
   10480798098395248237885383811549827977540806328535482826654502096921733894298;
   5638255131974358479805580241493363772547192455119887466712960485203695105319].
Definition bn254_4_xs : list Z :=
  [20295172135738542145747458902651890511965012894193440223657571318411888694234;
   9902414118645188065091925710671335479195056285675061277185466392898897450828;
   110495855149467622277890540827839582562916681038391593886188840349196791556;
   21542337766415933770281443898270841120781380423419514275581350130878553687909;
   3497445547232373026115878610466914862413285363498764310634302643588280948204].
Definition bn254_4_ys : list Z :=
  [0;
   13273953916467034238542965186580885000956832075527728190874788887546839805783;
   10249298016455391135845636854214038251286803857852478679535767866117915869702;
   11839516575745647938329139104159071277052659480207563813267513839703758307964;
   18863097152584804875744261049071081166118604587837928346553513053851694041384].
Definition bls12_381_2_xs : list Z :=
  [30702388921175729936871959046729733104160700240983249804553230962877416578993;
   38357561533318106919273107303444731768995218469592613833182454961125856183562;
   19145374875189066526818310502009940031339072252579043817725749544500701356601].
Definition bls12_381_2_ys : list Z :=
  [0;
   29285487522754177552605938680180770276909677940837990665870002120622019907258;
   47788480779244929950333887300126101965922042001510555153359515750122663765915].
Definition bls12_381_4_xs : list Z :=
  [25329052637176070330476149876460033857204073800890549586465038128360361119539;
   42030776276798809839747515947512490824043644261592913024669451280031411312178;
   17109729485187356463878404172219881427144381759388410459814602668393982189771;
   8730806865839751850879662915415244646272148466438679163332859197262388737713;
   35295045741926009259948571716193172598472117440216139088069782562978313785603].
Definition bls12_381_4_ys : list Z :=
  [0;
   39771093975515647170344382347176432839573167900117436168753556940702534471318;
   12575108471067475318325128664774310024008535510648515246135718181446914085324;
   7740638713339875708546926651598740775623391857277922839037792678145987980870;
   36915534622510442564480594527336973160985517205945584726514468138446869446428].
Definition pallas_xs : list Z :=
  [11677719389576486340898866738814653347933006238435220860239877019675274193486;
   27266722086932277094443892430575269414045716471444751575661652995420806953920;
   23121268500122145044776796127728508028594529991662441963247400564622530105318].
Definition pallas_ys : list Z :=
  [0;
   19940621340561732560914230222382055794910593688467245110010784731132070482120;
   10233087256425862049024245018526268642766153074702039982228515548016222039972].
Definition vesta_xs : list Z :=
  [25195335664794211614908868203228382261470229878910881074792452439021046869134;
   19505094878227160584478282834024415273530121289524529715291849347761708913269;
   28284643247027390266754035327930362662169225729853438019804533717795491463435].
Definition vesta_ys : list Z :=
  [0;
   7759299536040918392251609471986857707564847146672836731400308214581303299899;
   22248173655897027012600551843764065866036475010574438281309874801697482430182].
Lemma cauchy_bn254_2 : check_cauchy bn254_r 3 bn254_2_xs bn254_2_ys bn254_2_mds = true.
Proof. vm_compute. reflexivity. Qed.
Lemma cauchy_bn254_4 : check_cauchy bn254_r 5 bn254_4_xs bn254_4_ys bn254_4_mds = true.
Proof. vm_compute. reflexivity. Qed.
Lemma cauchy_bls12_381_2 : check_cauchy bls12_381_r 3 bls12_381_2_xs bls12_381_2_ys bls12_381_2_mds = true.
Proof. vm_compute. reflexivity. Qed.
Lemma cauchy_bls12_381_4 : check_cauchy bls12_381_r 5 bls12_381_4_xs bls12_381_4_ys bls12_381_4_mds = true.
Proof. vm_compute. reflexivity. Qed.
Lemma cauchy_pallas : check_cauchy pallas_p 3 pallas_xs pallas_ys pallas_mds = true.
Proof. vm_compute. reflexivity. Qed.
Lemma cauchy_vesta : check_cauchy vesta_p 3 vesta_xs vesta_ys vesta_mds = true.
Proof. vm_compute. reflexivity. Qed.

Local Open Scope nat_scope.
Section Counting.
Context (p : Z) (t : nat).
Definition same (a b : list (Zp p)) (i : nat) : bool := Z.eqb (proj1_sig (nth i a zero)) (proj1_sig (nth i b zero)).
Lemma same_spec a b i : same a b i = true <-> nth i a zero = nth i b zero.
Proof. unfold same. rewrite Z.eqb_eq. split; [apply zp_eq|now intros ->]. Qed.
Lemma differing_same a b : length (filter (same a b) (seq 0 t)) + differing t a b = t.
Proof.
  unfold differing, same. rewrite <- (seq_length t 0) at 3. generalize (seq 0 t). intros l. induction l as [|i l IH]; [reflexivity|].
  cbn [filter length]. destruct (Z.eqb _ _); cbn [negb length]; lia.
Qed.
Lemma sum_filter (f : nat -> Zp p) (g : nat -> bool) l : (forall i, In i l -> g i = false -> f i = zero) ->
  sum (map f l) = sum (map f (filter g l)).
Proof.
  pose proof (zp_ring p) as R. induction l as [|i l IH]; intros H; [reflexivity|]. cbn [map filter].
  assert (E : sum (map f l) = sum (map f (filter g l))) by (apply IH; intros k Hk; apply H; now right).
  destruct (g i) eqn:G; cbn [map]; unfold sum in *; cbn [fold_right]; rewrite E; [reflexivity|].
  rewrite (H i (or_introl eq_refl) G). apply (Radd_0_l R).
Qed.
End Counting.
Section MDS.
Context (p : Z) (Pp : prime p) (t : nat) (xs ys : list Z) (m : list (list N)).
Context (Sq : is_square t (of_table p m)) (Ck : check_cauchy p t xs ys m = true).
Notation M := (of_table p m).
Lemma p_gt_1 : (1 < p)%Z. Proof. pose proof (prime_ge_2 p Pp). lia. Qed.
Lemma zp_integral (a b : Zp p) : mul a b = zero -> a = zero \/ b = zero.
Proof.
  intros E. pose proof p_gt_1 as H1. apply (f_equal (@proj1_sig _ _)) in E. change (@mul (Zp p) a b) with (to_zp p (proj1_sig a * proj1_sig b)) in E.
  rewrite val_to_zp in E. change (proj1_sig (@zero (Zp p))) with (0 mod p)%Z in E. rewrite Z.mod_0_l in E by lia.
  apply Z.mod_divide in E; [|lia]. apply prime_mult in E; [|exact Pp].
  assert (X : forall c : zp p, (p | proj1_sig c)%Z -> c = to_zp p 0).
  { intros c D. apply zp_eq. rewrite val_to_zp, Z.mod_0_l by lia. pose proof (val_range p ltac:(lia) c) as Hc.
    destruct (Z.eq_dec (proj1_sig c) 0) as [->|N]; [reflexivity|]. apply Z.divide_pos_le in D; lia. }
  destruct E as [E|E]; [left|right]; now apply X.
Qed.
Definition xi (i : nat) : Zp p := to_zp p (nth i xs 0%Z).
Definition yj (j : nat) : Zp p := to_zp p (nth j ys 0%Z).
Lemma checked_entry i j : i < t -> j < t -> mul (add (xi i) (yj j)) (entry M i j) = one.
Proof.
  intros Hi Hj. apply andb_prop in Ck. destruct Ck as [C _]. rewrite forallb_forall in C. specialize (C i ltac:(apply in_seq; lia)).
  rewrite forallb_forall in C. specialize (C j ltac:(apply in_seq; lia)). apply Z.eqb_eq in C.
  rewrite entry_of_table. unfold xi, yj. rewrite <- to_zp_add, <- to_zp_mul. apply to_zp_mod. rewrite C. symmetry. apply Z.mod_1_l, p_gt_1.
Qed.
Lemma checked_distinct i j : i < t -> j < t -> xi i = xi j \/ yj i = yj j -> i = j.
Proof.
  intros Hi Hj E. apply andb_prop in Ck. destruct Ck as [_ C]. rewrite forallb_forall in C. specialize (C i ltac:(apply in_seq; lia)).
  rewrite forallb_forall in C. specialize (C j ltac:(apply in_seq; lia)). apply orb_prop in C. destruct C as [C|C]; [now apply Nat.eqb_eq|].
  apply andb_prop in C. destruct C as [C1 C2]. destruct E as [E|E]; apply (f_equal (@proj1_sig _ _)) in E; unfold xi, yj in E;
    rewrite !val_to_zp in E; apply Z.eqb_eq in E; rewrite E in *; discriminate.
Qed.
Theorem mds_branch a b : length a = t -> length b = t -> a <> b -> t + 1 <= differing t a b + differing t (mat M a) (mat M b).
Proof.
  intros La Lb N. pose proof (zp_ring p) as R. destruct (le_lt_dec (t + 1) (differing t a b + differing t (mat M a) (mat M b))) as [H|H]; [exact H|exfalso].
  set (d := fun j => sub (nth j a zero) (nth j b zero) : Zp p).
  set (J := filter (fun i => negb (same p a b i)) (seq 0 t)).
  assert (HJ : length J = differing t a b) by reflexivity.
  pose proof (differing_same p t (mat M a) (mat M b)) as HI. set (I0 := filter (same p (mat M a) (mat M b)) (seq 0 t)) in HI.
  assert (Le : length J <= length I0) by lia. set (I := firstn (length J) I0).
  assert (InI : forall i, In i I -> i < t /\ nth i (mat M a) zero = nth i (mat M b) zero).
  { intros i Hi. assert (Hi0 : In i I0) by (unfold I in Hi; rewrite <- (firstn_skipn (length J) I0); apply in_or_app; now left).
    apply filter_In in Hi0. destruct Hi0 as [Hs Hi0]. apply in_seq in Hs. split; [lia|now apply same_spec]. }
  assert (InJ : forall j, In j J -> j < t). { intros j Hj. apply filter_In in Hj. destruct Hj as [Hs _]. apply in_seq in Hs. lia. }
  assert (K : forall j, In j J -> d j = zero).
  { apply (cauchy_kernel R zp_integral xi yj (entry M) J I d).
    - apply NoDup_filter, seq_NoDup.
    - assert (ND : NoDup I0) by apply NoDup_filter, seq_NoDup. unfold I. rewrite <- (firstn_skipn (length J) I0) in ND.
      clear - ND. induction (firstn (length J) I0) as [|i l IH]; [constructor|]. cbn [app] in ND. apply NoDup_cons_iff in ND. destruct ND as [N1 N2].
      constructor; [|now apply IH]. intros X. apply N1, in_or_app. now left.
    - unfold I. rewrite firstn_length. lia.
    - intros i j Hi Hj. apply checked_entry; [now apply InI|now apply InJ].
    - intros i k Hi Hk E. apply checked_distinct; [now apply InI|now apply InI|now left].
    - intros j k Hj Hk E. apply checked_distinct; [now apply InJ|now apply InJ|now right].
    - intros i Hi. destruct (InI i Hi) as [Ht E].
      transitivity (sum (map (fun j => mul (d j) (entry M i j)) (seq 0 t))).
      { symmetry. apply sum_filter. intros j Hj G. apply negb_false_iff, same_spec in G. unfold d. rewrite G.
        assert (RT : ring_theory (@zero (Zp p)) one add mul sub opp eq) by exact R. rewrite (Rsub_def RT), (Ropp_def RT).
        clear - R. assert (Z : forall x : Zp p, mul zero x = zero) by (intros x; apply (sum_mul_zero R x)). apply Z. }
      rewrite !(mat_nth t M _ i) in E by auto. unfold d.
      transitivity (sub (sum (map (fun j => mul (entry M i j) (nth j a zero)) (seq 0 t))) (sum (map (fun j => mul (entry M i j) (nth j b zero)) (seq 0 t)))).
      { apply (sum_sub R). }
      rewrite E. apply (sub_same R). }
  apply N. apply nth_ext with (d := zero) (d' := zero); [congruence|]. intros j Hj. rewrite La in Hj.
  destruct (same p a b j) eqn:G; [now apply same_spec|]. apply (sub_eq R). apply K. apply filter_In. split; [apply in_seq; lia|now rewrite G].
Qed.
End MDS.

(** ** Rounds *)
Lemma differing_ext (p : Z) t (a b c d : list (Zp p)) :
  (forall i, i < t -> nth i a zero = nth i b zero <-> nth i c zero = nth i d zero) -> differing t a b = differing t c d.
Proof.
  intros H. unfold differing. f_equal. apply filter_ext_in. intros i Hi. apply in_seq in Hi. specialize (H i ltac:(lia)).
  destruct (Z.eqb_spec (proj1_sig (nth i a zero)) (proj1_sig (nth i b zero))) as [E|E];
  destruct (Z.eqb_spec (proj1_sig (nth i c zero)) (proj1_sig (nth i d zero))) as [E'|E']; auto; exfalso.
  - apply zp_eq, H in E. now rewrite E in E'.
  - apply zp_eq, H in E'. now rewrite E' in E.
Qed.
Lemma vadd_differing p t (a b c : list (Zp p)) : length a = t -> length b = t -> length c = t ->
  differing t (vadd a c) (vadd b c) = differing t a b.
Proof.
  intros La Lb Lc. apply differing_ext. intros i Hi. unfold vadd.
  rewrite (combine_nth_map add a c zero zero), (combine_nth_map add b c zero zero) by congruence. split; [|now intros ->].
  intros E. apply (add_cancel (zp_ring p) _ _ _ E).
Qed.
Lemma sbox_nth {F : ring} alpha full (s : list F) i : i < length s ->
  nth i (sbox alpha full s) zero = if (i =? 0) || full then power (nth i s zero) alpha else nth i s zero.
Proof.
  intros Hi. destruct s as [|x s]; [cbn in Hi; lia|]. cbn [sbox]. destruct i as [|i]; [reflexivity|]. cbn [nth length Nat.eqb orb] in *.
  destruct full; [|reflexivity]. rewrite (nth_indep _ zero (power zero alpha)) by (rewrite map_length; lia). apply (map_nth (fun y => power y alpha)).
Qed.
Lemma sbox_differing p t alpha full g (a b : list (Zp p)) : @sbox_inverse (Zp p) alpha g -> length a = t -> length b = t ->
  differing t (sbox alpha full a) (sbox alpha full b) = differing t a b.
Proof.
  intros G La Lb. apply differing_ext. intros i Hi. rewrite !sbox_nth by congruence. destruct ((i =? 0) || full); [|tauto].
  split; [|now intros ->]. intros E. apply (f_equal g) in E. now rewrite !(proj1 (G _)) in E.
Qed.
Lemma filter_le {A} (f : A -> bool) l : length (filter f l) <= length l.
Proof. induction l as [|x l IH]; cbn [filter length]; [lia|]. destruct (f x); cbn [length]; lia. Qed.
Lemma differing_pos p t (a b : list (Zp p)) : length a = t -> length b = t -> a <> b -> differing t a b <> 0.
Proof.
  intros La Lb N E. apply N. apply nth_ext with (d := zero) (d' := zero); [congruence|]. intros i Hi. rewrite La in Hi.
  pose proof (differing_same p t a b) as D. rewrite E in D.
  assert (X : forall l, length (filter (same p a b) l) + 0 = length l -> forall i, In i l -> same p a b i = true).
  { induction l as [|k l IH]; intros Hl j Hj; [destruct Hj|]. cbn [filter length] in Hl. pose proof (filter_le (same p a b) l).
    destruct (same p a b k) eqn:S; cbn [length] in Hl; [|lia]. destruct Hj as [<-|Hj]; [exact S|apply IH; auto; lia]. }
  apply same_spec. apply (X (seq 0 t)); [now rewrite seq_length|apply in_seq; lia].
Qed.
Lemma differing_ne p t (a b : list (Zp p)) : differing t a b <> 0 -> a <> b.
Proof.
  intros H ->. apply H. unfold differing. induction (seq 0 t) as [|i l IH]; [reflexivity|]. cbn [filter]. now rewrite Z.eqb_refl.
Qed.

Section Rounds.
Context (p : Z) (P : base_policy) (mds rc : list (list N)) (G : good p P mds rc) (xs ys : list Z).
Notation t := (state_words P).
Context (Ck : check_cauchy p t xs ys mds = true).
Definition round_of (P : base_policy) (M rc : list (list (Zp p))) (A : list (Zp p)) (r : nat) : option (list (Zp p)) :=
  if is_full (full_rounds P) (part_rounds P) r then full_round P M rc A r else part_round P M rc A r.
Lemma product_branch a b : length a = t -> length b = t -> a <> b ->
  t + 1 <= differing t a b + differing t (product_with_mds_matrix P (of_table p mds) a) (product_with_mds_matrix P (of_table p mds) b).
Proof.
  intros La Lb N. pose proof (good_shaped p P mds rc G) as Sh. rewrite !(product_mat (zp_ring p) P _ _ Sh) by auto.
  apply (mds_branch p (g_prime _ _ _ _ G) t xs ys); auto. apply (g_mds _ _ _ _ G).
Qed.
Lemma round_branch r a b : (mina_version P = true -> part_rounds P = 0) -> r < full_rounds P + part_rounds P ->
  length a = t -> length b = t -> a <> b ->
  exists a' b', round_of P (of_table p mds) (of_table p rc) a r = Some a' /\ round_of P (of_table p mds) (of_table p rc) b r = Some b' /\
    length a' = t /\ length b' = t /\ t + 1 <= differing t a b + differing t a' b'.
Proof.
  intros Hm Hr La Lb N. pose proof (good_shaped p P mds rc G) as Sh. pose proof (zp_ring p) as R. destruct (g_sbox _ _ _ _ G) as (g & Hg).
  pose proof (rc_row P _ _ Sh r Hr) as Lr. set (c := nth r (of_table p rc) []) in *.
  assert (X : forall full u v, length u = t -> length v = t -> differing t u v = differing t a b ->
    t + 1 <= differing t a b + differing t (mat (of_table p mds) (sbox (sbox_power P) full u)) (mat (of_table p mds) (sbox (sbox_power P) full v))).
  { intros full u v Lu Lv E. rewrite <- E, <- (sbox_differing p t (sbox_power P) full g u v) by auto.
    apply (mds_branch p (g_prime _ _ _ _ G) t xs ys); rewrite ?sbox_length; auto; [apply (g_mds _ _ _ _ G)|].
    apply differing_ne with (t := t). rewrite (sbox_differing p t _ _ g), E by auto. now apply differing_pos. }
  unfold round_of. destruct (mina_version P) eqn:M.
  - assert (Fl : is_full (full_rounds P) (part_rounds P) r = true). { unfold is_full. rewrite Hm by reflexivity. apply orb_true_iff. rewrite Nat.ltb_lt, Nat.leb_le. lia. }
    rewrite Fl. exists (mina_round (sbox_power P) (of_table p mds) (of_table p rc) a r), (mina_round (sbox_power P) (of_table p mds) (of_table p rc) b r).
    rewrite !(full_mina R P _ _ Sh) by auto. rewrite !(mina_round_length P _ _ Sh) by auto. repeat (split; [reflexivity|]).
    unfold mina_round. fold c. rewrite vadd_differing by (rewrite ?mat_length; auto; apply Sh). now apply X.
  - exists (poseidon_round (sbox_power P) (full_rounds P) (part_rounds P) (of_table p mds) (of_table p rc) a r), (poseidon_round (sbox_power P) (full_rounds P) (part_rounds P) (of_table p mds) (of_table p rc) b r).
    assert (Rd : forall s, length s = t -> (if is_full (full_rounds P) (part_rounds P) r then full_round P (of_table p mds) (of_table p rc) s r else part_round P (of_table p mds) (of_table p rc) s r)
      = Some (poseidon_round (sbox_power P) (full_rounds P) (part_rounds P) (of_table p mds) (of_table p rc) s r)).
    { intros s Ls. destruct (is_full (full_rounds P) (part_rounds P) r) eqn:Fl; [apply (full_original R P _ _ Sh)|apply (part_original R P _ _ Sh)]; auto. }
    rewrite !Rd by auto. rewrite !(round_length P _ _ Sh). repeat (split; [reflexivity|]). unfold poseidon_round. fold c.
    apply X; [rewrite vadd_length; congruence|rewrite vadd_length; congruence|now apply vadd_differing].
Qed.
End Rounds.

(** ** Every instance *)
Definition instance (f : field_name) (P : base_policy) (mds rc : list (list N)) : Prop :=
  constants_data f P = Some (mds, rc) /\ (P = mina_poseidon_policy \/ exists Security Rate, poseidon_policy Security Rate = Some P).
Lemma original_cauchy f sec rt P mds rc : poseidon_policy sec rt = Some P -> constants_data f P = Some (mds, rc) ->
  exists xs ys, check_cauchy (modulus f) (state_words P) xs ys mds = true.
Proof.
  intros HP HC. unfold poseidon_policy in HP.
  destruct (sec =? 80); [|destruct (sec =? 128); [|destruct (sec =? 256); [|discriminate]]].
  - destruct ((rt =? 1) || (rt =? 2)); [injection HP as <-; destruct f; discriminate HC|].
    destruct (rt =? 4); [|discriminate]. injection HP as <-. destruct f; discriminate HC.
  - destruct ((rt =? 1) || (rt =? 2)) eqn:E1.
    { destruct (Nat.eqb_spec rt 1) as [->|N1]; [injection HP as <-; destruct f; discriminate HC|].
      destruct (Nat.eqb_spec rt 2) as [->|N2]; [|discriminate E1].
      injection HP as <-. destruct f; try discriminate HC; injection HC as <- <-; eexists _, _; [exact cauchy_bn254_2|exact cauchy_bls12_381_2]. }
    destruct (Nat.eqb_spec rt 4) as [->|N4].
    { injection HP as <-. destruct f; try discriminate HC; injection HC as <- <-; eexists _, _; [exact cauchy_bn254_4|exact cauchy_bls12_381_4]. }
    destruct (rt =? 8); [|discriminate]. injection HP as <-. destruct f; discriminate HC.
  - destruct (rt <=? 4); [|discriminate]. injection HP as <-. destruct f; discriminate HC.
Qed.
Lemma instance_ok f P mds rc : instance f P mds rc ->
  good (modulus f) P mds rc /\ (mina_version P = true -> part_rounds P = 0) /\ exists xs ys, check_cauchy (modulus f) (state_words P) xs ys mds = true.
Proof.
  intros [HC HP]. destruct HP as [->|(sec & rt & HP)].
  - split; [now apply mina_cases|]. split; [reflexivity|].
    destruct f; try discriminate HC; injection HC as <- <-; eexists _, _; [exact cauchy_pallas|exact cauchy_vesta].
  - destruct (original_cases f sec rt P mds rc HP HC) as (Hv & _ & _ & _ & Gd). split; [exact Gd|]. split; [rewrite Hv; discriminate|].
    exact (original_cauchy f sec rt P mds rc HP HC).
Qed.
Theorem product_mds f P mds rc a b : instance f P mds rc -> length a = state_words P -> length b = state_words P -> a <> b ->
  state_words P + 1 <= differing (p := modulus f) (state_words P) a b +
    differing (state_words P) (product_with_mds_matrix P (of_table (modulus f) mds) a) (product_with_mds_matrix P (of_table (modulus f) mds) b).
Proof. intros I La Lb N. destruct (instance_ok _ _ _ _ I) as (Gd & _ & xs & ys & C). exact (product_branch _ P mds rc Gd xs ys C a b La Lb N). Qed.
Theorem round_mds f P mds rc r a b : instance f P mds rc -> r < full_rounds P + part_rounds P ->
  length a = state_words P -> length b = state_words P -> a <> b ->
  exists a' b', round_of (modulus f) P (of_table _ mds) (of_table _ rc) a r = Some a' /\ round_of (modulus f) P (of_table _ mds) (of_table _ rc) b r = Some b' /\
    length a' = state_words P /\ length b' = state_words P /\
    state_words P + 1 <= differing (p := modulus f) (state_words P) a b + differing (state_words P) a' b'.
Proof. intros I Hr La Lb N. destruct (instance_ok _ _ _ _ I) as (Gd & Hm & xs & ys & C). exact (round_branch _ P mds rc Gd xs ys C r a b Hm Hr La Lb N). Qed.

Lemma pallas_pair :
  let a := map (to_zp pallas_p) [0; 0; 0]%Z in
  let b := map (to_zp pallas_p) [0; 5; 0]%Z in
  constants_data pallas_base mina_poseidon_policy = Some (pallas_mds, pallas_rc) /\ a <> b /\
  differing (p := modulus pallas_base) 3 a b = 1 /\ state_words mina_poseidon_policy = 3 /\
  differing (p := modulus pallas_base) 3 (product_with_mds_matrix mina_poseidon_policy (of_table pallas_p pallas_mds) a)
    (product_with_mds_matrix mina_poseidon_policy (of_table pallas_p pallas_mds) b) = 3.
Proof.
  intros a b. split; [reflexivity|]. assert (D : differing (p := modulus pallas_base) 3 a b = 1) by (vm_compute; reflexivity).
  split; [intros E; rewrite E in D; vm_compute in D; discriminate D|]. split; [exact D|]. split; [reflexivity|]. vm_compute. reflexivity.
Qed.
