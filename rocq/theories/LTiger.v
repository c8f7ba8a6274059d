(** Tiger: the model is the specification; bijectivity. *)
From Coq Require Import NArith Arith List Bool Lia ZifyBool ZifyNat ZifyN ZArith.
From Verif Require Import SpecStream LStream MPack LInj MAcc LAcc LBsp MConstr SpecMD LMD LMDProps LMDStmt.
From Verif Require Import SpecWords LWords SpecMDOctets LMDOctets LArith LRipemd.
From Verif Require Import MTiger LTigerGen.
From Verif Require SpecTiger SpecTigerTables PMD.
Module T := SpecTiger.
Import ListNotations.
Ltac Zify.zify_post_hook ::= Z.div_mod_to_equations.
Local Open Scope N_scope.

Notation ok := (fits 64).
Definition ok3 (v : N * N * N) := let '(a, b, c) := v in ok a /\ ok b /\ ok c.

Lemma sbox_ok (l : list N) : forallb (fun x => x <? 2 ^ 64) l = true -> forall i, ok (nth i l 0).
Proof.
  intros H i. destruct (Nat.lt_ge_cases i (length l)).
  - rewrite forallb_forall in H. apply N.ltb_lt. apply H. now apply nth_In.
  - rewrite nth_overflow by auto. reflexivity.
Qed.
Lemma sbox1_ok i : ok (nth i sbox1 0). Proof. now apply sbox_ok. Qed.
Lemma sbox2_ok i : ok (nth i sbox2 0). Proof. now apply sbox_ok. Qed.
Lemma sbox3_ok i : ok (nth i sbox3 0). Proof. now apply sbox_ok. Qed.
Lemma sbox4_ok i : ok (nth i sbox4 0). Proof. now apply sbox_ok. Qed.

Lemma odd_ok x : ok (odd_octets x).
Proof. unfold odd_octets, lookup. repeat apply (lxor_fits 64); auto using sbox1_ok, sbox2_ok, sbox3_ok, sbox4_ok. Qed.
Lemma even_ok x : ok (even_octets x).
Proof. unfold even_octets, lookup. repeat apply (lxor_fits 64); auto using sbox1_ok, sbox2_ok, sbox3_ok, sbox4_ok. Qed.

Lemma extract_octet x i : i <= 7 -> extract x (7 - i) = T.octet i x.
Proof.
  intros Hi. unfold extract, T.octet. replace (7 - (7 - i)) with i by lia.
  rewrite N.shiftr_div_pow2. change 255 with (N.ones 8). now rewrite N.land_ones.
Qed.

Notation TS := [sbox1; sbox2; sbox3; sbox4].
Lemma odd_spec c : odd_octets c =
  N.lxor (N.lxor (N.lxor (T.t TS 0 (T.octet 0 c)) (T.t TS 1 (T.octet 2 c))) (T.t TS 2 (T.octet 4 c))) (T.t TS 3 (T.octet 6 c)).
Proof.
  unfold odd_octets, lookup. change 7 with (7 - 0) at 1. change 5 with (7 - 2) at 1.
  change 3 with (7 - 4) at 1. change 1 with (7 - 6) at 1. rewrite !extract_octet by lia. reflexivity.
Qed.
Lemma even_spec c : even_octets c =
  N.lxor (N.lxor (N.lxor (T.t TS 3 (T.octet 1 c)) (T.t TS 2 (T.octet 3 c))) (T.t TS 1 (T.octet 5 c))) (T.t TS 0 (T.octet 7 c)).
Proof.
  unfold even_octets, lookup.
  replace (extract c 0) with (T.octet 7 c) by (symmetry; exact (extract_octet c 7 ltac:(lia))).
  replace (extract c 2) with (T.octet 5 c) by (symmetry; exact (extract_octet c 5 ltac:(lia))).
  replace (extract c 4) with (T.octet 3 c) by (symmetry; exact (extract_octet c 3 ltac:(lia))).
  replace (extract c 6) with (T.octet 1 c) by (symmetry; exact (extract_octet c 1 ltac:(lia))).
  change (T.t TS 0 (T.octet 7 c)) with (nth (N.to_nat (T.octet 7 c)) sbox1 0).
  change (T.t TS 1 (T.octet 5 c)) with (nth (N.to_nat (T.octet 5 c)) sbox2 0).
  change (T.t TS 2 (T.octet 3 c)) with (nth (N.to_nat (T.octet 3 c)) sbox3 0).
  change (T.t TS 3 (T.octet 1 c)) with (nth (N.to_nat (T.octet 1 c)) sbox4 0).
  generalize (nth (N.to_nat (T.octet 7 c)) sbox1 0) (nth (N.to_nat (T.octet 5 c)) sbox2 0)
    (nth (N.to_nat (T.octet 3 c)) sbox3 0) (nth (N.to_nat (T.octet 1 c)) sbox4 0).
  intros p q r s. apply N.bits_inj. intros i. rewrite !N.lxor_spec.
  destruct (N.testbit p i), (N.testbit q i), (N.testbit r i), (N.testbit s i); reflexivity.
Qed.

Lemma sub_eq x y : ok y -> minus64 x y = T.sub64 x y.
Proof.
  intros H. unfold minus64, T.sub64, fits in *. change (2 ^ N.of_nat 64) with (2 ^ 64) in H.
  rewrite (N.mod_small y) by exact H. f_equal. revert H. generalize (2 ^ 64). lia.
Qed.

(** One step followed by the shift of names. *)
Definition mstep (v : N * N * N) (xm : N * N) : N * N * N :=
  let '(A, B, C) := v in
  let C := N.lxor C (fst xm) in
  let A := minus64 A (odd_octets C) in
  let B := plus64 B (even_octets C) in
  let B := times64 B (snd xm) in
  (B, C, A).

Lemma mstep_spec v xm : mstep v xm = T.shifted_round SpecTigerTables.tables v xm.
Proof.
  destruct v as [[a b] c], xm as [x mul]. unfold mstep, T.shifted_round, T.round. cbn [fst snd]. cbv zeta.
  rewrite tables_eq, <- odd_spec, <- even_spec, sub_eq by apply odd_ok. reflexivity.
Qed.

Definition back (v : N * N * N) : N * N * N := let '(c, a, b) := v in (a, b, c).
Definition forth (v : N * N * N) : N * N * N := let '(a, b, c) := v in (c, a, b).
Lemma back_forth v : back (forth v) = v.
Proof. now destruct v as [[a b] c]. Qed.
Lemma forth_back v : forth (back v) = v.
Proof. now destruct v as [[a b] c]. Qed.

Lemma pass_steps v X mul : length X = 8%nat ->
  pass v X mul = back (fold_left mstep (map (fun x => (x, mul)) X) v).
Proof.
  intros L. destruct X as [|X0 [|X1 [|X2 [|X3 [|X4 [|X5 [|X6 [|X7 [|]]]]]]]]]; try discriminate L.
  destruct v as [[A B] C]. reflexivity.
Qed.

Lemma pass_spec v X mul : length X = 8%nat -> T.pass SpecTigerTables.tables X mul v = forth (pass v X mul).
Proof.
  intros L. rewrite pass_steps, forth_back by auto. unfold T.pass.
  generalize (map (fun x => (x, mul)) X). intros l. revert v.
  induction l as [|p l IH]; intros v; cbn [fold_left]; [reflexivity|]. rewrite <- mstep_spec. apply IH.
Qed.

(** The key schedule. *)
Definition okb (X : list N) := length X = 8%nat /\ Forall ok X.

Lemma compl_eq x : ok x -> compl64 x = T.not64 x.
Proof.
  intros H. unfold compl64, T.not64.
  change (2 ^ 64 - 1) with (N.ones 64). change 0xFFFFFFFFFFFFFFFF with (N.ones 64).
  change (N.lxor x (N.ones 64)) with (N.lnot x 64).
  destruct (N.eq_dec x 0) as [->|Z]; [reflexivity|].
  apply N.lnot_sub_low. apply N.log2_lt_pow2; [lia|]. exact H.
Qed.
Lemma shl_eq x k : shl64 x k = T.shl k x.
Proof. unfold shl64, T.shl. now rewrite N.shiftl_mul_pow2. Qed.
Lemma shr_eq x k : N.shiftr x k = T.shr k x.
Proof. unfold T.shr. now rewrite N.shiftr_div_pow2. Qed.
Lemma compl_ok x : ok x -> ok (compl64 x).
Proof. intros H. apply (lxor_fits 64); [auto|reflexivity]. Qed.
Lemma minus_ok' x y : ok (minus64 x y). Proof. apply (mod_fits 64). Qed.
Lemma plus_ok' x y : ok (plus64 x y). Proof. apply (mod_fits 64). Qed.
Lemma shl_ok x k : ok (shl64 x k). Proof. apply (mod_fits 64). Qed.
Lemma times_ok x y : ok (times64 x y). Proof. apply (mod_fits 64). Qed.

Ltac okt := repeat first [assumption | apply minus_ok' | apply plus_ok' | apply shl_ok | apply times_ok
  | apply (lxor_fits 64) | apply (shiftr_fits 64) | apply compl_ok | reflexivity].

Lemma mix_ok X : okb X -> okb (mix X).
Proof.
  intros [L F]. destruct X as [|X0 [|X1 [|X2 [|X3 [|X4 [|X5 [|X6 [|X7 [|]]]]]]]]]; try discriminate L.
  repeat match goal with H : Forall _ (_ :: _) |- _ => inversion H; clear H; subst end.
  unfold mix. cbv zeta. split; [reflexivity|].
  repeat (apply Forall_cons; [okt|]). constructor.
Qed.

Lemma fold_cons {A B} (f : A -> B -> A) b l x : fold_left f (b :: l) x = fold_left f l (f x b).
Proof. reflexivity. Qed.
Ltac nxt := rewrite fold_cons; cbn [T.assign T.set T.x_ length seq combine map fst snd Nat.eqb nth].

Lemma mix_spec X : okb X -> mix X = T.key_schedule X.
Proof.
  intros [L F]. destruct X as [|X0 [|X1 [|X2 [|X3 [|X4 [|X5 [|X6 [|X7 [|]]]]]]]]]; try discriminate L.
  repeat match goal with H : Forall _ (_ :: _) |- _ => inversion H; clear H; subst end.
  unfold mix, T.key_schedule, T.assignments.
  set (Y0 := minus64 X0 _). assert (E0 : Y0 = T.sub64 X0 (N.lxor X7 0xA5A5A5A5A5A5A5A5)) by (apply sub_eq; okt).
  assert (K0 : ok Y0) by okt.
  set (Y1 := N.lxor X1 Y0). assert (K1 : ok Y1) by okt.
  set (Y2 := plus64 X2 Y1). assert (K2 : ok Y2) by okt.
  set (Y3 := minus64 X3 _). assert (E3 : Y3 = T.sub64 X3 (N.lxor Y2 (T.shl 19 (T.not64 Y1))))
    by (unfold Y3; rewrite sub_eq by okt; now rewrite shl_eq, compl_eq by okt).
  assert (K3 : ok Y3) by okt.
  set (Y4 := N.lxor X4 Y3). assert (K4 : ok Y4) by okt.
  set (Y5 := plus64 X5 Y4). assert (K5 : ok Y5) by okt.
  set (Y6 := minus64 X6 _). assert (E6 : Y6 = T.sub64 X6 (N.lxor Y5 (T.shr 23 (T.not64 Y4))))
    by (unfold Y6; rewrite sub_eq by okt; now rewrite shr_eq, compl_eq by okt).
  assert (K6 : ok Y6) by okt.
  set (Y7 := N.lxor X7 Y6). assert (K7 : ok Y7) by okt.
  set (Z0 := plus64 Y0 Y7). assert (J0 : ok Z0) by okt.
  set (Z1 := minus64 Y1 _). assert (D1 : Z1 = T.sub64 Y1 (N.lxor Z0 (T.shl 19 (T.not64 Y7))))
    by (unfold Z1; rewrite sub_eq by okt; now rewrite shl_eq, compl_eq by okt).
  assert (J1 : ok Z1) by okt.
  set (Z2 := N.lxor Y2 Z1). assert (J2 : ok Z2) by okt.
  set (Z3 := plus64 Y3 Z2). assert (J3 : ok Z3) by okt.
  set (Z4 := minus64 Y4 _). assert (D4 : Z4 = T.sub64 Y4 (N.lxor Z3 (T.shr 23 (T.not64 Z2))))
    by (unfold Z4; rewrite sub_eq by okt; now rewrite shr_eq, compl_eq by okt).
  assert (J4 : ok Z4) by okt.
  set (Z5 := N.lxor Y5 Z4). assert (J5 : ok Z5) by okt.
  set (Z6 := plus64 Y6 Z5). assert (J6 : ok Z6) by okt.
  set (Z7 := minus64 Y7 _). assert (D7 : Z7 = T.sub64 Y7 (N.lxor Z6 0x0123456789ABCDEF)) by (apply sub_eq; okt).
  nxt. rewrite <- E0.
  nxt. fold Y1.
  nxt. change (T.add64 X2 Y1) with Y2.
  nxt. rewrite <- E3.
  nxt. fold Y4.
  nxt. change (T.add64 X5 Y4) with Y5.
  nxt. rewrite <- E6.
  nxt. fold Y7.
  nxt. change (T.add64 Y0 Y7) with Z0.
  nxt. rewrite <- D1.
  nxt. fold Z2.
  nxt. change (T.add64 Y3 Z2) with Z3.
  nxt. rewrite <- D4.
  nxt. fold Z5.
  nxt. change (T.add64 Y6 Z5) with Z6.
  nxt. rewrite <- D7.
  reflexivity.
Qed.

(** The passes. *)
Lemma iter_S {A} (f : A -> A) n x : Nat.iter (S n) f x = f (Nat.iter n f x).
Proof. reflexivity. Qed.
Lemma iter_mix X p : okb X -> Nat.iter p T.key_schedule X = Nat.iter p mix X /\ okb (Nat.iter p mix X).
Proof.
  intros H. induction p as [|p [E K]]; [auto|]. rewrite !iter_S. split; [|now apply mix_ok].
  now rewrite E, <- mix_spec.
Qed.

Lemma pass_at X p mul v : okb X -> T.pass SpecTigerTables.tables (Nat.iter p T.key_schedule X) mul v = forth (pass v (Nat.iter p mix X) mul).
Proof. intros H. destruct (iter_mix X p H) as [-> [L _]]. now apply pass_spec. Qed.

Lemma passes_S n X v : T.passes SpecTigerTables.tables (S n) X v = T.pass SpecTigerTables.tables (Nat.iter n T.key_schedule X) (T.multiplier n) (T.passes SpecTigerTables.tables n X v).
Proof. unfold T.passes. rewrite seq_S, fold_left_app. reflexivity. Qed.

Lemma keyed_spec k X v : okb X -> T.passes SpecTigerTables.tables (3 + k) X v = keyed (3 + k) X v.
Proof.
  intros H. unfold keyed. replace (3 + k - 3)%nat with k by lia.
  destruct v as [[A B] C]. 
  destruct (pass (A, B, C) X 5) as [[A1 B1] C1] eqn:E1.
  destruct (pass (C1, A1, B1) (mix X) 7) as [[C2 A2] B2] eqn:E2.
  destruct (pass (B2, C2, A2) (mix (mix X)) 9) as [[B3 C3] A3] eqn:E3.
  enough (K : (T.passes SpecTigerTables.tables (3 + k) X (A, B, C), Nat.iter (2 + k) mix X) =
              Nat.iter k more_pass (A3, B3, C3, mix (mix X))).
  { now rewrite <- K. }
  induction k as [|k IH].
  - change (Nat.iter (2 + 0) mix X) with (mix (mix X)). cbn [Nat.iter Nat.add]. f_equal.
    rewrite !passes_S. change (T.passes SpecTigerTables.tables 0 X (A, B, C)) with (A, B, C).
    rewrite (pass_at X 0) by auto. change (Nat.iter 0 mix X) with X. change (T.multiplier 0) with 5. rewrite E1. cbn [forth].
    rewrite (pass_at X 1) by auto. change (Nat.iter 1 mix X) with (mix X). change (T.multiplier 1) with 7. rewrite E2. cbn [forth].
    rewrite (pass_at X 2) by auto. change (Nat.iter 2 mix X) with (mix (mix X)). change (T.multiplier 2) with 9. rewrite E3. reflexivity.
  - rewrite iter_S, <- IH. unfold more_pass.
    change (3 + S k)%nat with (S (3 + k)). rewrite passes_S, (pass_at X) by auto.
    change (Nat.iter (3 + k) mix X) with (mix (Nat.iter (2 + k) mix X)).
    change (Nat.iter (2 + S k) mix X) with (mix (Nat.iter (2 + k) mix X)).
    change (T.multiplier (3 + k)) with 9.
    destruct (pass _ (mix (Nat.iter (2 + k) mix X)) 9) as [[a b] c]. reflexivity.
Qed.

Definition st3 (l : list N) := length l = 3%nat /\ Forall ok l.

Lemma mstep_ok v xm : ok3 v -> ok (fst xm) -> ok3 (mstep v xm).
Proof.
  destruct v as [[a b] c]. intros (Ha & Hb & Hc) Hx. unfold mstep, ok3. cbv zeta.
  split; [okt|split; okt].
Qed.
Lemma pass_ok v X mul : okb X -> ok3 v -> ok3 (pass v X mul).
Proof.
  intros [L F] Hv. rewrite pass_steps by auto.
  assert (K : ok3 (fold_left mstep (map (fun x => (x, mul)) X) v)).
  { clear L. revert v Hv. induction F as [|x X Hx F IH]; intros v Hv; cbn [map fold_left]; [auto|].
    apply IH. now apply mstep_ok. }
  destruct (fold_left mstep _ v) as [[c a] b]. destruct K as (?&?&?). repeat split; assumption.
Qed.
Lemma keyed_ok n X v : okb X -> ok3 v -> ok3 (keyed n X v).
Proof.
  intros H Hv. unfold keyed. destruct v as [[A B] C].
  pose proof (pass_ok (A, B, C) X 5 H Hv) as K1. destruct (pass (A, B, C) X 5) as [[A1 B1] C1].
  assert (H1 := mix_ok X H). assert (H2 := mix_ok _ H1).
  pose proof (pass_ok (C1, A1, B1) (mix X) 7 H1 ltac:(cbv [ok3] in *; tauto)) as K2.
  destruct (pass (C1, A1, B1) (mix X) 7) as [[C2 A2] B2].
  pose proof (pass_ok (B2, C2, A2) (mix (mix X)) 9 H2 ltac:(cbv [ok3] in *; tauto)) as K3.
  destruct (pass (B2, C2, A2) (mix (mix X)) 9) as [[B3 C3] A3].
  assert (K : okb (snd ((A3, B3, C3), mix (mix X))) /\ ok3 (fst ((A3, B3, C3), mix (mix X)))).
  { cbn [fst snd]. split; [auto|cbv [ok3] in *; tauto]. }
  revert K. generalize ((A3, B3, C3), mix (mix X)). intros s [Ks1 Ks2].
  enough (okb (snd (Nat.iter (n - 3) more_pass s)) /\ ok3 (fst (Nat.iter (n - 3) more_pass s))) by tauto.
  induction (n - 3)%nat as [|m [I1 I2]]; [auto|]. rewrite iter_S.
  destruct (Nat.iter m more_pass s) as [u inp]. unfold more_pass. cbn [fst snd] in *.
  pose proof (mix_ok _ I1) as J1. pose proof (pass_ok u (mix inp) 9 J1 I2) as J2.
  destruct (pass u (mix inp) 9) as [[a b] c]. cbn [fst snd]. split; [auto|cbv [ok3] in *; tauto].
Qed.

Lemma process_spec k s b : st3 s -> okb b ->
  tiger_process_block (3 + k) s b = T.compress SpecTigerTables.tables (3 + k) s b /\ st3 (tiger_process_block (3 + k) s b).
Proof.
  intros [L F] Hb. destruct s as [|s0 [|s1 [|s2 [|]]]]; try discriminate L.
  repeat match goal with H : Forall _ (_ :: _) |- _ => inversion H; clear H; subst end.
  unfold tiger_process_block, T.compress. rewrite keyed_spec by auto.
  pose proof (keyed_ok (3 + k) b (s0, s1, s2) Hb ltac:(repeat split; assumption)) as K.
  destruct (keyed (3 + k) b (s0, s1, s2)) as [[A B] C]. destruct K as (KA & KB & KC).
  split.
  - rewrite sub_eq by auto. unfold plus64, T.add64. now rewrite (N.lxor_comm s0), (N.add_comm s2).
  - split; [reflexivity|]. repeat (apply Forall_cons; [okt|]). constructor.
Qed.

(** More state words than three stay as they are. *)
Lemma process_rest k s z b : length s = 3%nat ->
  tiger_process_block k (s ++ z) b = tiger_process_block k s b ++ z /\ length (tiger_process_block k s b) = 3%nat.
Proof.
  intros L. destruct s as [|s0 [|s1 [|s2 [|]]]]; try discriminate L. cbn [app tiger_process_block].
  destruct (keyed k b (s0, s1, s2)) as [[A B] C]. auto.
Qed.
Lemma fold_rest k bs z : forall s, length s = 3%nat ->
  fold_left (tiger_process_block k) bs (s ++ z) = fold_left (tiger_process_block k) bs s ++ z /\
  length (fold_left (tiger_process_block k) bs s) = 3%nat.
Proof.
  induction bs as [|b bs IH]; intros s L; cbn [fold_left]; [auto|].
  destruct (process_rest k s z b L) as [-> L']. now apply IH.
Qed.

Lemma le_octets_app n a b : le_octets n (a ++ b) = le_octets n a ++ le_octets n b.
Proof. apply flat_map_app. Qed.
Lemma le_octets_zeros n k : le_octets n (repeat 0 k) = repeat 0 (n * k).
Proof.
  induction k as [|k IH]; [now rewrite Nat.mul_0_r|]. unfold le_octets in *. cbn [repeat flat_map]. rewrite IH.
  replace (n * S k)%nat with (n + n * k)%nat by lia. rewrite repeat_app. f_equal.
  clear. induction n as [|n IH]; [reflexivity|]. cbn [octets_le repeat]. f_equal. exact IH.
Qed.

Definition tg_iv (k : nat) : list N :=
  [0x0123456789ABCDEF; 0xFEDCBA9876543210; 0xF096A5B4C3B2E187] ++ repeat 0 k.
Definition tg k p inj := PMD.md_tiger LOBB 64 8 64 (3 + k) (tg_iv k) (tiger_process_block (3 + p)) inj.
Lemma tiger_is k p inj : tiger (64 * (3 + k)) (3 + p) inj = Some (tg k p inj).
Proof.
  unfold tiger, tiger_iv.
  replace (64 * (3 + k) / 64)%nat with (3 + k)%nat by (rewrite Nat.mul_comm, Nat.div_mul; auto).
  replace (3 + k <? 3)%nat with false by (symmetry; apply Nat.ltb_ge; lia).
  cbn [option_map]. replace (3 + k - 3)%nat with k by lia. reflexivity.
Qed.

Lemma tiger_md_hash k p os : Forall (fits 8) os ->
  SpecMD.md_hash LOBB 64 8 64 (64 * (3 + k)) SpecMD.tiger_marker (tg_iv k) (tiger_process_block (3 + p)) (octets_bits os) =
  T.TIGER (3 + p) os ++ repeat 0 (8 * k).
Proof.
  intros HF. unfold tg_iv. set (iv := [_; _; _]). set (comp := tiger_process_block (3 + p)).
  pose proof (tiger_hash_octets false 8 8 8 ltac:(lia) ltac:(lia) (iv ++ repeat 0 k) comp (8 * (3 + k)) os HF) as E.
  change (8 * 8)%nat with 64%nat in E. replace (8 * (8 * (3 + k)))%nat with (64 * (3 + k))%nat in E by lia.
  cbv iota in E. rewrite E; clear E.
  2:{ intros bs. destruct (fold_rest (3 + p) bs (repeat 0 k) iv eq_refl) as [E1 E2].
      fold comp in E1, E2. rewrite E1, app_length, E2, repeat_length. lia. }
  unfold T.TIGER.
  pose proof (md_octets_comp false 8 8 8 ltac:(lia) ltac:(lia) 0x01 iv comp (T.compress SpecTigerTables.tables (3 + p)) 24 os st3) as E.
  change T.H0 with iv. rewrite <- E; clear E; auto; try reflexivity.
  2:{ intros s b Hs [Hb1 Hb2]. apply process_spec; [auto|split; auto]. }
  2:{ split; [reflexivity|]. repeat (apply Forall_cons; [reflexivity|]). constructor. }
  unfold md_octets, to_octets.
  destruct (fold_rest (3 + p) (map (to_words false 8) (chunks (8 * 8) (padded false 8 8 8 1 os))) (repeat 0 k) iv eq_refl) as [E1 E2].
  fold comp in E1, E2. rewrite E1, le_octets_app, le_octets_zeros.
  assert (L24 : length (le_octets 8 (fold_left comp (map (to_words false 8) (chunks (8 * 8) (padded false 8 8 8 1 os))) iv)) = 24%nat).
  { pose proof (to_octets_length false 8 8 ltac:(lia) ltac:(lia) (fold_left comp (map (to_words false 8) (chunks (8 * 8) (padded false 8 8 8 1 os))) iv)) as E3.
    unfold to_octets in E3. rewrite E3, E2. reflexivity. }
  rewrite !firstn_all2; auto; rewrite ?app_length, ?L24, ?repeat_length; lia.
Qed.

Lemma tiger_once k p inj junk os :
  injector_contract LOBB 64 8 inj -> block_ok 64 8 junk ->
  Forall (fits 8) os -> N.of_nat (8 * length os) < 2 ^ 64 ->
  exists C, tiger (64 * (3 + k)) (3 + p) inj = Some C /\
    hash_once C inj 8 junk os = Some (T.TIGER (3 + p) os ++ repeat 0 (8 * k)).
Proof.
  intros IC BO HF L. exists (tg k p inj). split; [apply tiger_is|]. unfold tg.
  rewrite PMD.C01_tiger_marker_digest_octets; [|apply LMDStmt.md_example|auto|auto|auto|auto|auto].
  f_equal. now apply tiger_md_hash.
Qed.

(** Bijectivity. *)
Definition umstep (v : N * N * N) (xm : N * N) (im : N) : N * N * N :=
  let '(B, C, A) := v in
  (plus64 A (odd_octets C), minus64 (times64 B im) (even_octets C), N.lxor C (fst xm)).

Lemma times_inv b m im : ok b -> times64 m im = 1 -> times64 (times64 b m) im = b.
Proof.
  intros Hb H. unfold times64 in *. rewrite N.mul_mod_idemp_l by discriminate. rewrite <- N.mul_assoc.
  rewrite <- N.mul_mod_idemp_r by discriminate. rewrite H, N.mul_1_r. now apply N.mod_small.
Qed.

Lemma add_sub64 x y : ok x -> minus64 (plus64 x y) y = x.
Proof. exact (minus_plus 64 x y). Qed.
Lemma sub_add64 x y : ok x -> plus64 (minus64 x y) y = x.
Proof. exact (plus_minus 64 x y). Qed.
Lemma lxor_lxor x y : N.lxor (N.lxor x y) y = x.
Proof. now rewrite N.lxor_assoc, N.lxor_nilpotent, N.lxor_0_r. Qed.

Lemma mstep_bij xm im : ok (fst xm) -> times64 (snd xm) im = 1 -> bij_on ok3 (fun v => mstep v xm).
Proof.
  intros Hx Hm. exists (fun v => umstep v xm im). intros v Hv. split; [now apply mstep_ok|].
  destruct v as [[a b] c]. destruct Hv as (Ha & Hb & Hc). unfold umstep, mstep. cbv zeta.
  split; [repeat split; okt|].
  rewrite !lxor_lxor. rewrite (times_inv _ _ im) by okt. rewrite add_sub64, sub_add64 by okt. split; [reflexivity|].
  rewrite sub_add64 by okt. rewrite (times_inv _ _ (snd xm)); [|okt|unfold times64 in *; now rewrite N.mul_comm].
  rewrite add_sub64 by okt. reflexivity.
Qed.

Lemma back_bij : bij_on ok3 back.
Proof.
  exists forth. intros v Hv. rewrite back_forth, forth_back. destruct v as [[a b] c]. cbv [ok3 back forth] in *. tauto.
Qed.
Lemma bij_ext {A} (P : A -> Prop) f h : (forall v, f v = h v) -> bij_on P f -> bij_on P h.
Proof. intros E [u H]. exists u. intros v Hv. rewrite <- !E. auto. Qed.

Lemma pass_bij X mul im : okb X -> times64 mul im = 1 -> bij_on ok3 (fun v => pass v X mul).
Proof.
  intros [L F] Hm. apply (bij_ext _ (fun v => back (fold_left mstep (map (fun x => (x, mul)) X) v))).
  { intros v. symmetry. now apply pass_steps. }
  apply (bij_comp ok3 back); [apply back_bij|]. apply bij_fold. intros xm Hi.
  apply in_map_iff in Hi. destruct Hi as (x & <- & Hi). apply (mstep_bij _ im); [|exact Hm].
  rewrite Forall_forall in F. now apply F.
Qed.

Lemma iter_mix_ok X n : okb X -> okb (Nat.iter n mix X).
Proof. intros H. now apply iter_mix. Qed.

Lemma keyed_bij n X : okb X -> bij_on ok3 (keyed n X).
Proof.
  intros H.
  assert (P5 : bij_on ok3 (fun v => pass v X 5)) by (apply (pass_bij X 5 14757395258967641293); [auto|reflexivity]).
  assert (P7 : bij_on ok3 (fun v => pass v (mix X) 7))
    by (apply (pass_bij _ 7 7905747460161236407); [now apply mix_ok|reflexivity]).
  assert (P9 : forall k, bij_on ok3 (fun v => pass v (Nat.iter k mix X) 9))
    by (intros k; apply (pass_bij _ 9 10248191152060862009); [now apply iter_mix_ok|reflexivity]).
  assert (FB : bij_on ok3 forth).
  { exists back. intros v Hv. rewrite back_forth, forth_back. destruct v as [[a b] c]. cbv [ok3 back forth] in *. tauto. }
  assert (M : forall k, bij_on ok3 (fun v => fst (Nat.iter k more_pass (v, mix (mix X)))) /\
                forall v, snd (Nat.iter k more_pass (v, mix (mix X))) = Nat.iter (2 + k) mix X).
  { induction k as [|k [IH1 IH2]].
    - split; [|reflexivity]. exists (fun v => v). auto.
    - assert (E : forall v, Nat.iter (S k) more_pass (v, mix (mix X)) =
        (forth (pass (fst (Nat.iter k more_pass (v, mix (mix X)))) (Nat.iter (3 + k) mix X) 9), Nat.iter (3 + k) mix X)).
      { intros v. rewrite iter_S. specialize (IH2 v). destruct (Nat.iter k more_pass (v, mix (mix X))) as [u inp].
        cbn [fst snd] in *. subst inp. unfold more_pass. change (Nat.iter (3 + k) mix X) with (mix (Nat.iter (2 + k) mix X)).
        destruct (pass u _ 9) as [[a b] c]. reflexivity. }
      split; [|intros v; now rewrite E].
      apply (bij_ext _ (fun v => forth (pass (fst (Nat.iter k more_pass (v, mix (mix X)))) (Nat.iter (3 + k) mix X) 9))).
      { intros v. now rewrite E. }
      apply (bij_comp ok3 forth (fun v => pass (fst (Nat.iter k more_pass (v, mix (mix X)))) (Nat.iter (3 + k) mix X) 9)); [exact FB|].
      exact (bij_comp ok3 (fun v => pass v (Nat.iter (3 + k) mix X) 9) _ (P9 (3 + k)%nat) IH1). }
  apply (bij_ext _ (fun v => fst (Nat.iter (n - 3) more_pass
    (forth (pass (forth (pass (forth (pass v X 5)) (mix X) 7)) (mix (mix X)) 9), mix (mix X))))).
  { intros [[A B] C]. unfold keyed. destruct (pass (A, B, C) X 5) as [[A1 B1] C1]. cbn [forth].
    destruct (pass (C1, A1, B1) (mix X) 7) as [[C2 A2] B2]. cbn [forth].
    destruct (pass (B2, C2, A2) (mix (mix X)) 9) as [[B3 C3] A3]. reflexivity. }
  apply (bij_comp ok3 (fun v => fst (Nat.iter (n - 3) more_pass (v, mix (mix X))))
    (fun v => forth (pass (forth (pass (forth (pass v X 5)) (mix X) 7)) (mix (mix X)) 9))); [apply M|].
  apply (bij_comp ok3 forth (fun v => pass (forth (pass (forth (pass v X 5)) (mix X) 7)) (mix (mix X)) 9) FB).
  apply (bij_comp ok3 (fun v => pass v (mix (mix X)) 9) (fun v => forth (pass (forth (pass v X 5)) (mix X) 7)) (P9 2%nat)).
  apply (bij_comp ok3 forth (fun v => pass (forth (pass v X 5)) (mix X) 7) FB).
  apply (bij_comp ok3 (fun v => pass v (mix X) 7) (fun v => forth (pass v X 5)) P7).
  exact (bij_comp ok3 forth (fun v => pass v X 5) FB P5).
Qed.

(** The key schedule is a bijection of blocks. *)
Definition unmix (X : list N) : list N :=
  match X with
  | [X0; X1; X2; X3; X4; X5; X6; X7] =>
    let X7 := plus64 X7 (N.lxor X6 0x0123456789ABCDEF) in
    let X6 := minus64 X6 X5 in
    let X5 := N.lxor X5 X4 in
    let X4 := plus64 X4 (N.lxor X3 (N.shiftr (compl64 X2) 23)) in
    let X3 := minus64 X3 X2 in
    let X2 := N.lxor X2 X1 in
    let X1 := plus64 X1 (N.lxor X0 (shl64 (compl64 X7) 19)) in
    let X0 := minus64 X0 X7 in
    let X7 := N.lxor X7 X6 in
    let X6 := plus64 X6 (N.lxor X5 (N.shiftr (compl64 X4) 23)) in
    let X5 := minus64 X5 X4 in
    let X4 := N.lxor X4 X3 in
    let X3 := plus64 X3 (N.lxor X2 (shl64 (compl64 X1) 19)) in
    let X2 := minus64 X2 X1 in
    let X1 := N.lxor X1 X0 in
    let X0 := plus64 X0 (N.lxor X7 0xA5A5A5A5A5A5A5A5) in
    [X0; X1; X2; X3; X4; X5; X6; X7]
  | _ => X
  end.

Lemma unmix_ok X : okb X -> okb (unmix X).
Proof.
  intros [L F]. destruct X as [|X0 [|X1 [|X2 [|X3 [|X4 [|X5 [|X6 [|X7 [|]]]]]]]]]; try discriminate L.
  repeat match goal with H : Forall _ (_ :: _) |- _ => inversion H; clear H; subst end.
  unfold unmix. cbv zeta. split; [reflexivity|].
  repeat (apply Forall_cons; [okt|]). constructor.
Qed.
Lemma unmix_mix X : okb X -> unmix (mix X) = X.
Proof.
  intros [L F]. destruct X as [|X0 [|X1 [|X2 [|X3 [|X4 [|X5 [|X6 [|X7 [|]]]]]]]]]; try discriminate L.
  repeat match goal with H : Forall _ (_ :: _) |- _ => inversion H; clear H; subst end.
  unfold mix, unmix. cbv zeta.
  repeat first [rewrite lxor_lxor | rewrite add_sub64 by okt | rewrite sub_add64 by okt]. reflexivity.
Qed.
Lemma mix_unmix X : okb X -> mix (unmix X) = X.
Proof.
  intros [L F]. destruct X as [|X0 [|X1 [|X2 [|X3 [|X4 [|X5 [|X6 [|X7 [|]]]]]]]]]; try discriminate L.
  repeat match goal with H : Forall _ (_ :: _) |- _ => inversion H; clear H; subst end.
  unfold mix, unmix. cbv zeta.
  repeat first [rewrite lxor_lxor | rewrite add_sub64 by okt | rewrite sub_add64 by okt]. reflexivity.
Qed.
