(** RIPEMD: the model's compression functions are those of the specification; inversion of a line. *)
From Coq Require Import NArith Arith List Bool Lia ZifyBool ZifyNat ZifyN ZArith.
From Verif Require Import SpecStream LStream MPack LInj MAcc LAcc LBsp MConstr SpecMD LMD LMDProps LMDStmt.
From Verif Require Import SpecWords LWords SpecMDOctets LMDOctets LArith.
From Verif Require Import SpecBij MRipemd.
From Verif Require SpecRipemd PMD.
Module R := SpecRipemd.
Import ListNotations.
Ltac Zify.zify_post_hook ::= Z.div_mod_to_equations.
Local Open Scope N_scope.

Notation ok := (fits 32).
Definition ok4 (v : N * N * N * N) := let '(a, b, c, d) := v in ok a /\ ok b /\ ok c /\ ok d.
Definition ok5 (v : N * N * N * N * N) := let '(a, b, c, d, e) := v in ok a /\ ok b /\ ok c /\ ok d /\ ok e.

Lemma plus_ok x y : ok (plus32 x y).
Proof. apply (mod_fits 32). Qed.
Lemma rotl_w_eq k x : rotl 32 k x = rotl_w 32 k x.
Proof. reflexivity. Qed.
Lemma rol_eq k x : ok x -> k <= 32 -> rotl 32 k x = R.rol k x.
Proof. intros Hx Hk. apply (rotl_arith 32); auto. Qed.
Lemma rotl_ok k x : ok x -> ok (rotl 32 k x).
Proof. apply (rotl_fits 32). Qed.

Lemma add2 x y : plus32 x y = R.add [x; y].
Proof. unfold plus32, R.add. cbn [fold_right]. now rewrite N.add_0_r. Qed.
Lemma add3 x y z : plus32 (plus32 x y) z = R.add [x; y; z].
Proof.
  unfold plus32, R.add. cbn [fold_right]. rewrite N.add_mod_idemp_l by discriminate.
  now rewrite N.add_0_r, N.add_assoc.
Qed.
Lemma add4 x y z t : plus32 (plus32 (plus32 x y) z) t = R.add [x; y; z; t].
Proof.
  unfold plus32, R.add. cbn [fold_right]. rewrite (N.add_mod_idemp_l (x + y)), N.add_mod_idemp_l by discriminate.
  now rewrite N.add_0_r, !N.add_assoc.
Qed.

Lemma transform4_spec F v x k s : ok4 v -> s <= 32 ->
  transform4 F v x k s = R.step4 F x k s v /\ ok4 (transform4 F v x k s).
Proof.
  destruct v as [[[a b] c] d]. intros (Ha & Hb & Hc & Hd) Hs. unfold transform4, R.step4, ok4. cbv zeta.
  split; [|auto using rotl_ok, plus_ok].
  rewrite rol_eq, add4 by (auto using plus_ok). reflexivity.
Qed.

Lemma transform5_spec F v x k s : ok5 v -> s <= 32 ->
  transform5 F v x k s = R.step5 F x k s v /\ ok5 (transform5 F v x k s).
Proof.
  destruct v as [[[[a b] c] d] e]. intros (Ha & Hb & Hc & Hd & He) Hs. unfold transform5, R.step5, ok5. cbv zeta.
  split.
  - rewrite (rol_eq 10), (rol_eq s), add4, add2 by (auto using plus_ok; lia). reflexivity.
  - repeat split; auto using rotl_ok, plus_ok.
Qed.

Lemma tables : forall j i, (j < 5)%nat -> (i < 16)%nat ->
  nth (16 * j + i) r1 0%nat = R.r j i /\ nth (16 * j + i) r2 0%nat = R.r' j i /\
  nth (16 * j + i) s1 0 = R.s j (R.r j i) /\ nth (16 * j + i) s2 0 = R.s j (R.r' j i) /\
  nth (16 * j + i) s1 0 <= 32 /\ nth (16 * j + i) s2 0 <= 32.
Proof.
  assert (H : forallb (fun j => forallb (fun i =>
      (nth (16 * j + i) r1 0 =? R.r j i)%nat && (nth (16 * j + i) r2 0 =? R.r' j i)%nat &&
      (nth (16 * j + i) s1 0 =? R.s j (R.r j i)) && (nth (16 * j + i) s2 0 =? R.s j (R.r' j i)) &&
      (nth (16 * j + i) s1 0 <=? 32) && (nth (16 * j + i) s2 0 <=? 32)) (seq 0 16)) (seq 0 5) = true)
    by (vm_compute; reflexivity).
  intros j i Hj Hi. rewrite forallb_forall in H. specialize (H j ltac:(apply in_seq; lia)).
  rewrite forallb_forall in H. specialize (H i ltac:(apply in_seq; lia)).
  repeat rewrite andb_true_iff in H. destruct H as [[[[[H1 H2] H3] H4] H5] H6].
  apply Nat.eqb_eq in H1, H2. apply N.eqb_eq in H3, H4. apply N.leb_le in H5, H6. auto 10.
Qed.

Lemma seq_shift_add lo n : seq lo n = map (fun i => (lo + i)%nat) (seq 0 n).
Proof.
  revert lo. induction n as [|n IH]; intros lo; cbn [seq map]; [reflexivity|]. f_equal; [lia|].
  rewrite (IH (S lo)), (IH 1%nat), map_map. apply map_ext. intros. lia.
Qed.

Section Line.
Context {V : Type} (tr : (N -> N -> N -> N) -> V -> N -> N -> N -> V)
  (st : (N -> N -> N -> N) -> N -> N -> N -> V -> V) (okV : V -> Prop)
  (Htr : forall F v x k s, okV v -> s <= 32 -> tr F v x k s = st F x k s v /\ okV (tr F v x k s)).

Lemma loop_fold block lo F1 k1 F2 k2 (v : V * V) : loop tr block lo F1 k1 F2 k2 v =
  (fold_left (fun u j => tr F1 u (nth (nth j r1 0%nat) block 0) k1 (nth j s1 0)) (seq lo 16) (fst v),
   fold_left (fun u j => tr F2 u (nth (nth j r2 0%nat) block 0) k2 (nth j s2 0)) (seq lo 16) (snd v)).
Proof.
  unfold loop. generalize (seq lo 16). intros l. revert v. induction l as [|j l IH]; intros [u1 u2]; cbn [fold_left].
  - reflexivity.
  - rewrite IH. reflexivity.
Qed.

Lemma fold_step (tb : list nat) (sb : list N) (rr : nat -> nat) (ss : nat -> N) F k block j l : forall v, okV v ->
  (forall i, In i l -> nth (16 * j + i) tb 0%nat = rr i /\ nth (16 * j + i) sb 0 = ss (rr i) /\ nth (16 * j + i) sb 0 <= 32) ->
  fold_left (fun u j => tr F u (nth (nth j tb 0%nat) block 0) k (nth j sb 0)) (map (fun i => (16 * j + i)%nat) l) v =
  fold_left (fun u i => st F (nth (rr i) block 0) k (ss (rr i)) u) l v /\
  okV (fold_left (fun u j => tr F u (nth (nth j tb 0%nat) block 0) k (nth j sb 0)) (map (fun i => (16 * j + i)%nat) l) v).
Proof.
  induction l as [|i l IH]; intros v Hv H; cbn [map fold_left]; [auto|].
  destruct (H i ltac:(now left)) as (E1 & E2 & E3).
  destruct (Htr F v (nth (nth (16 * j + i) tb 0%nat) block 0) k (nth (16 * j + i) sb 0) Hv E3) as [E4 E5].
  destruct (IH _ E5) as [E6 E7]; [intros; apply H; now right|].
  split; [|exact E7]. rewrite E6, E4, E1, E2. reflexivity.
Qed.

Lemma loop_round block rounds j F1 k1 F2 k2 v1 v2 : (j < 5)%nat ->
  F1 = R.f j -> k1 = R.K j -> F2 = R.f (rounds - 1 - j) -> k2 = R.K' rounds j -> okV v1 -> okV v2 ->
  let p := loop tr block (16 * j) F1 k1 F2 k2 (v1, v2) in
  p = (R.left_round st block v1 j, R.right_round st rounds block v2 j) /\ okV (fst p) /\ okV (snd p).
Proof.
  intros Hj -> -> -> -> H1 H2 p. unfold p. rewrite loop_fold. cbn [fst snd].
  rewrite seq_shift_add.
  destruct (fold_step r1 s1 (R.r j) (R.s j) (R.f j) (R.K j) block j (seq 0 16) v1 H1) as [E1 K1].
  { intros i Hi. apply in_seq in Hi. destruct (tables j i Hj ltac:(lia)) as (?&?&?&?&?&?). auto. }
  destruct (fold_step r2 s2 (R.r' j) (R.s j) (R.f (rounds - 1 - j)) (R.K' rounds j) block j (seq 0 16) v2 H2) as [E2 K2].
  { intros i Hi. apply in_seq in Hi. destruct (tables j i Hj ltac:(lia)) as (?&?&?&?&?&?). auto. }
  split; [|split; assumption]. rewrite E1, E2. reflexivity.
Qed.
End Line.

Lemma K_values : map R.K (seq 0 5) = [0; 0x5a827999; 0x6ed9eba1; 0x8f1bbcdc; 0xa953fd4e] /\
  map (R.K' 5) (seq 0 5) = [0x50a28be6; 0x5c4dd124; 0x6d703ef3; 0x7a6d76e9; 0] /\
  map (R.K' 4) (seq 0 4) = [0x50a28be6; 0x5c4dd124; 0x6d703ef3; 0].
Proof. vm_compute. auto. Qed.

Definition st (n : nat) (l : list N) := length l = n /\ Forall ok l.

Definition loop4 := @loop_round _ transform4 R.step4 ok4 transform4_spec.
Definition loop5 := @loop_round _ transform5 R.step5 ok5 transform5_spec.

(** A pair of lines through the rounds, as one function of the round number. *)
Definition rounds4 (b : list N) (j : nat) (p : (N * N * N * N) * (N * N * N * N)) :=
  (R.left_round R.step4 b (fst p) j, R.right_round R.step4 4 b (snd p) j).
Definition rounds5 (b : list N) (j : nat) (p : (N * N * N * N * N) * (N * N * N * N * N)) :=
  (R.left_round R.step5 b (fst p) j, R.right_round R.step5 5 b (snd p) j).
Definition okp {V} (o : V -> Prop) (p : V * V) := o (fst p) /\ o (snd p).

Lemma round4 b j F1 k1 F2 k2 p : (j < 5)%nat ->
  F1 = R.f j -> k1 = R.K j -> F2 = R.f (4 - 1 - j) -> k2 = R.K' 4 j -> okp ok4 p ->
  loop transform4 b (16 * j) F1 k1 F2 k2 p = rounds4 b j p /\ okp ok4 (rounds4 b j p).
Proof.
  intros Hj H1 H2 H3 H4 [P1 P2]. destruct p as [u1 u2].
  destruct (loop4 b 4%nat j F1 k1 F2 k2 u1 u2 Hj H1 H2 H3 H4 P1 P2) as (E & K1 & K2).
  rewrite E in *. split; [reflexivity|split; assumption].
Qed.
Lemma round5 b j F1 k1 F2 k2 p : (j < 5)%nat ->
  F1 = R.f j -> k1 = R.K j -> F2 = R.f (5 - 1 - j) -> k2 = R.K' 5 j -> okp ok5 p ->
  loop transform5 b (16 * j) F1 k1 F2 k2 p = rounds5 b j p /\ okp ok5 (rounds5 b j p).
Proof.
  intros Hj H1 H2 H3 H4 [P1 P2]. destruct p as [u1 u2].
  destruct (loop5 b 5%nat j F1 k1 F2 k2 u1 u2 Hj H1 H2 H3 H4 P1 P2) as (E & K1 & K2).
  rewrite E in *. split; [reflexivity|split; assumption].
Qed.

Lemma four {V} (f g : V -> nat -> V) v u :
  let P j (p : V * V) := (f (fst p) j, g (snd p) j) in
  P 3%nat (P 2%nat (P 1%nat (P 0%nat (v, u)))) = (fold_left f (seq 0 4) v, fold_left g (seq 0 4) u).
Proof. reflexivity. Qed.
Lemma five {V} (f g : V -> nat -> V) v u :
  let P j (p : V * V) := (f (fst p) j, g (snd p) j) in
  P 4%nat (P 3%nat (P 2%nat (P 1%nat (P 0%nat (v, u))))) = (fold_left f (seq 0 5) v, fold_left g (seq 0 5) u).
Proof. reflexivity. Qed.
Lemma rounds4_fold b v u : rounds4 b 3 (rounds4 b 2 (rounds4 b 1 (rounds4 b 0 (v, u)))) =
  (fold_left (R.left_round R.step4 b) (seq 0 4) v, fold_left (R.right_round R.step4 4 b) (seq 0 4) u).
Proof. unfold rounds4. exact (four (R.left_round R.step4 b) (R.right_round R.step4 4 b) v u). Qed.
Lemma rounds5_fold b v u : rounds5 b 4 (rounds5 b 3 (rounds5 b 2 (rounds5 b 1 (rounds5 b 0 (v, u))))) =
  (fold_left (R.left_round R.step5 b) (seq 0 5) v, fold_left (R.right_round R.step5 5 b) (seq 0 5) u).
Proof. unfold rounds5. exact (five (R.left_round R.step5 b) (R.right_round R.step5 5 b) v u). Qed.

Ltac rnd L j :=
  match goal with |- context [loop _ ?b _ ?F1 ?k1 ?F2 ?k2 ?p] =>
    match goal with Hp : okp _ p |- _ =>
      let E := fresh "E" in let K := fresh "K" in
      pose proof (L b j F1 k1 F2 k2 p ltac:(lia) eq_refl ltac:(vm_compute; reflexivity) eq_refl
        ltac:(vm_compute; reflexivity) Hp) as [E K];
      cbn [Nat.mul Nat.add] in E; rewrite E; clear E
    end
  end.

Lemma process128 s b : st 4 s ->
  ripemd128_process_block s b = R.RIPEMD128_compress s b /\ st 4 (ripemd128_process_block s b).
Proof.
  intros [L F]. destruct s as [|s0 [|s1 [|s2 [|s3 [|]]]]]; try discriminate L.
  repeat match goal with H : Forall _ (_ :: _) |- _ => inversion H; clear H; subst end.
  unfold ripemd128_process_block, ripemd128_lines, R.RIPEMD128_compress. cbv zeta.
  assert (K0 : okp ok4 ((s0, s1, s2, s3), (s0, s1, s2, s3))) by (repeat split; assumption).
  rnd round4 0%nat. rnd round4 1%nat. rnd round4 2%nat. rnd round4 3%nat.
  rewrite rounds4_fold.
  destruct (fold_left (R.left_round R.step4 b) _ _) as [[[A B] C] D].
  destruct (fold_left (R.right_round R.step4 4 b) _ _) as [[[A' B'] C'] D'].
  split; [|repeat constructor; apply plus_ok]. now rewrite !add3.
Qed.

Lemma process160 s b : st 5 s ->
  ripemd160_process_block s b = R.RIPEMD160_compress s b /\ st 5 (ripemd160_process_block s b).
Proof.
  intros [L F]. destruct s as [|s0 [|s1 [|s2 [|s3 [|s4 [|]]]]]]; try discriminate L.
  repeat match goal with H : Forall _ (_ :: _) |- _ => inversion H; clear H; subst end.
  unfold ripemd160_process_block, ripemd160_lines, R.RIPEMD160_compress. cbv zeta.
  assert (K0 : okp ok5 ((s0, s1, s2, s3, s4), (s0, s1, s2, s3, s4))) by (repeat split; assumption).
  rnd round5 0%nat. rnd round5 1%nat. rnd round5 2%nat. rnd round5 3%nat. rnd round5 4%nat.
  rewrite rounds5_fold.
  destruct (fold_left (R.left_round R.step5 b) _ _) as [[[[A B] C] D] E].
  destruct (fold_left (R.right_round R.step5 5 b) _ _) as [[[[A' B'] C'] D'] E'].
  split; [|repeat constructor; apply plus_ok]. now rewrite !add3.
Qed.

Lemma ex4 j p : okp ok4 p -> okp ok4 (R.exchange4 j p).
Proof.
  destruct p as [[[[a b] c] d] [[[a' b'] c'] d']]. intros [(?&?&?&?) (?&?&?&?)].
  destruct j as [|[|[|]]]; repeat split; assumption.
Qed.
Lemma ex5 j p : okp ok5 p -> okp ok5 (R.exchange5 j p).
Proof.
  destruct p as [[[[[a b] c] d] e] [[[[a' b'] c'] d'] e']]. intros [(?&?&?&?&?) (?&?&?&?&?)].
  destruct j as [|[|[|[|]]]]; repeat split; assumption.
Qed.

Lemma swaps4 p : swap_0_4 p = R.exchange4 0 p /\ swap_1_5 p = R.exchange4 1 p /\
  swap_2_6 p = R.exchange4 2 p /\ swap_3_7 p = R.exchange4 3 p.
Proof. repeat split; reflexivity. Qed.
Lemma swaps5 p : swap_1_6 p = R.exchange5 0 p /\ swap_3_8 p = R.exchange5 1 p /\
  swap_0_5 p = R.exchange5 2 p /\ swap_2_7 p = R.exchange5 3 p /\ swap_4_9 p = R.exchange5 4 p.
Proof. repeat split; reflexivity. Qed.

Lemma four_x {V} (f g : V -> nat -> V) (x : nat -> V * V -> V * V) p :
  let P j (p : V * V) := (f (fst p) j, g (snd p) j) in
  fold_left (fun p j => x j (f (fst p) j, g (snd p) j)) (seq 0 4) p =
  x 3%nat (P 3%nat (x 2%nat (P 2%nat (x 1%nat (P 1%nat (x 0%nat (P 0%nat p))))))).
Proof. reflexivity. Qed.
Lemma five_x {V} (f g : V -> nat -> V) (x : nat -> V * V -> V * V) p :
  let P j (p : V * V) := (f (fst p) j, g (snd p) j) in
  fold_left (fun p j => x j (f (fst p) j, g (snd p) j)) (seq 0 5) p =
  x 4%nat (P 4%nat (x 3%nat (P 3%nat (x 2%nat (P 2%nat (x 1%nat (P 1%nat (x 0%nat (P 0%nat p))))))))).
Proof. reflexivity. Qed.
Lemma rounds4_x b p :
  fold_left (fun p j => R.exchange4 j (R.left_round R.step4 b (fst p) j, R.right_round R.step4 4 b (snd p) j)) (seq 0 4) p =
  R.exchange4 3 (rounds4 b 3 (R.exchange4 2 (rounds4 b 2 (R.exchange4 1 (rounds4 b 1 (R.exchange4 0 (rounds4 b 0 p))))))).
Proof. unfold rounds4. exact (four_x (R.left_round R.step4 b) (R.right_round R.step4 4 b) R.exchange4 p). Qed.
Lemma rounds5_x b p :
  fold_left (fun p j => R.exchange5 j (R.left_round R.step5 b (fst p) j, R.right_round R.step5 5 b (snd p) j)) (seq 0 5) p =
  R.exchange5 4 (rounds5 b 4 (R.exchange5 3 (rounds5 b 3 (R.exchange5 2 (rounds5 b 2 (R.exchange5 1 (rounds5 b 1
    (R.exchange5 0 (rounds5 b 0 p))))))))).
Proof. unfold rounds5. exact (five_x (R.left_round R.step5 b) (R.right_round R.step5 5 b) R.exchange5 p). Qed.

Lemma process256 s b : st 8 s ->
  ripemd256_process_block s b = R.RIPEMD256_compress s b /\ st 8 (ripemd256_process_block s b).
Proof.
  intros [L F]. destruct s as [|s0 [|s1 [|s2 [|s3 [|s4 [|s5 [|s6 [|s7 [|]]]]]]]]]; try discriminate L.
  repeat match goal with H : Forall _ (_ :: _) |- _ => inversion H; clear H; subst end.
  unfold ripemd256_process_block, ripemd256_lines, R.RIPEMD256_compress. cbv zeta.
  assert (K0 : okp ok4 ((s0, s1, s2, s3), (s4, s5, s6, s7))) by (repeat split; assumption).
  rewrite (proj1 (swaps4 _)), (proj1 (proj2 (swaps4 _))), (proj1 (proj2 (proj2 (swaps4 _)))),
    (proj2 (proj2 (proj2 (swaps4 _)))), rounds4_x.
  rnd round4 0%nat. apply (ex4 0) in K. rnd round4 1%nat. apply (ex4 1) in K1.
  rnd round4 2%nat. apply (ex4 2) in K2. rnd round4 3%nat.
  destruct (R.exchange4 3 _) as [[[[A B] C] D] [[[A' B'] C'] D']].
  split; [|repeat constructor; apply plus_ok]. now rewrite !add2.
Qed.

Lemma process320 s b : st 10 s ->
  ripemd320_process_block s b = R.RIPEMD320_compress s b /\ st 10 (ripemd320_process_block s b).
Proof.
  intros [L F]. destruct s as [|s0 [|s1 [|s2 [|s3 [|s4 [|s5 [|s6 [|s7 [|s8 [|s9 [|]]]]]]]]]]]; try discriminate L.
  repeat match goal with H : Forall _ (_ :: _) |- _ => inversion H; clear H; subst end.
  unfold ripemd320_process_block, ripemd320_lines, R.RIPEMD320_compress. cbv zeta.
  assert (K0 : okp ok5 ((s0, s1, s2, s3, s4), (s5, s6, s7, s8, s9))) by (repeat split; assumption).
  rewrite (proj1 (swaps5 _)), (proj1 (proj2 (swaps5 _))), (proj1 (proj2 (proj2 (swaps5 _)))),
    (proj1 (proj2 (proj2 (proj2 (swaps5 _))))), (proj2 (proj2 (proj2 (proj2 (swaps5 _))))), rounds5_x.
  rnd round5 0%nat. apply (ex5 0) in K. rnd round5 1%nat. apply (ex5 1) in K1.
  rnd round5 2%nat. apply (ex5 2) in K2. rnd round5 3%nat. apply (ex5 3) in K3. rnd round5 4%nat.
  destruct (R.exchange5 4 _) as [[[[[A B] C] D] E] [[[[A' B'] C'] D'] E']].
  split; [|repeat constructor; apply plus_ok]. now rewrite !add2.
Qed.

(** Whole hashes. *)
Lemma md_octets_of (big : bool) n bw lo dw iv comp comp' (m : nat) (P : list N -> Prop) inj junk os :
  (0 < n)%nat -> (0 < bw)%nat -> md_params (8 * n) bw (8 * lo) ->
  injector_contract (if big then BOBB else LOBB) (8 * n) bw inj -> block_ok (8 * n) bw junk ->
  (forall s b, P s -> comp s b = comp' s b /\ P (comp s b)) -> P iv ->
  (forall s, P s -> (dw <= length s)%nat) ->
  Forall (fits 8) os -> N.of_nat (8 * length os) < 2 ^ 64 ->
  hash_once (PMD.md (if big then BOBB else LOBB) (8 * n) bw (8 * lo) dw iv comp inj) inj 8 junk os =
  Some (md_octets big n bw lo 0x80 iv comp' (n * dw) os).
Proof.
  intros Hn Hbw MP IC BO HC Hi HL HF L.
  rewrite PMD.C01_md_digest_octets by (auto; destruct big; auto). f_equal.
  replace (8 * n * dw)%nat with (8 * (n * dw))%nat by lia.
  assert (HP : forall bs s, P s -> P (fold_left comp bs s)).
  { induction bs as [|b bs IH]; intros s Hs; cbn; auto. apply IH. now apply HC. }
  rewrite md_hash_octets; auto.
  - apply (md_octets_comp big n bw lo Hn Hbw 0x80 iv comp comp' (n * dw) os P); auto. reflexivity.
  - intros bs. apply Nat.mul_le_mono_l. auto.
Qed.

Lemma ripemd_once dw iv comp comp' inj junk os :
  injector_contract LOBB 32 16 inj -> block_ok 32 16 junk ->
  (forall s b, st dw s -> comp s b = comp' s b /\ st dw (comp s b)) -> st dw iv -> dw = length iv ->
  Forall (fits 8) os -> N.of_nat (8 * length os) < 2 ^ 64 ->
  hash_once (ripemd dw iv comp inj) inj 8 junk os = Some (R.RIPEMD iv comp' os).
Proof.
  intros IC BO HC Hi E HF L. unfold R.RIPEMD. rewrite <- E.
  refine (md_octets_of false 4 16 8 dw iv comp comp' 0 (st dw) inj junk os _ _ _ IC BO HC Hi _ HF L); try lia.
  - apply LMDStmt.md_example.
  - intros s [-> _]. lia.
Qed.

Lemma st_iv n l : Nat.eqb (length l) n && forallb (fun x => x <? 2 ^ 32) l = true -> st n l.
Proof.
  intros H. apply andb_true_iff in H. destruct H as [H1 H2]. apply Nat.eqb_eq in H1. split; [auto|].
  rewrite forallb_forall in H2. apply Forall_forall. intros x Hx. apply H2 in Hx. apply N.ltb_lt in Hx. exact Hx.
Qed.

Lemma ripemd128_once inj junk os : injector_contract LOBB 32 16 inj -> block_ok 32 16 junk ->
  Forall (fits 8) os -> N.of_nat (8 * length os) < 2 ^ 64 ->
  hash_once (ripemd128 inj) inj 8 junk os = Some (R.RIPEMD128 os).
Proof.
  intros. apply (ripemd_once 4 ripemd128_iv ripemd128_process_block R.RIPEMD128_compress); auto.
  - intros. now apply process128.
  - now apply st_iv.
Qed.
Lemma ripemd160_once inj junk os : injector_contract LOBB 32 16 inj -> block_ok 32 16 junk ->
  Forall (fits 8) os -> N.of_nat (8 * length os) < 2 ^ 64 ->
  hash_once (ripemd160 inj) inj 8 junk os = Some (R.RIPEMD160 os).
Proof.
  intros. apply (ripemd_once 5 ripemd160_iv ripemd160_process_block R.RIPEMD160_compress); auto.
  - intros. now apply process160.
  - now apply st_iv.
Qed.
Lemma ripemd256_once inj junk os : injector_contract LOBB 32 16 inj -> block_ok 32 16 junk ->
  Forall (fits 8) os -> N.of_nat (8 * length os) < 2 ^ 64 ->
  hash_once (ripemd256 inj) inj 8 junk os = Some (R.RIPEMD256 os).
Proof.
  intros. apply (ripemd_once 8 ripemd256_iv ripemd256_process_block R.RIPEMD256_compress); auto.
  - intros. now apply process256.
  - now apply st_iv.
Qed.
Lemma ripemd320_once inj junk os : injector_contract LOBB 32 16 inj -> block_ok 32 16 junk ->
  Forall (fits 8) os -> N.of_nat (8 * length os) < 2 ^ 64 ->
  hash_once (ripemd320 inj) inj 8 junk os = Some (R.RIPEMD320 os).
Proof.
  intros. apply (ripemd_once 10 ripemd320_iv ripemd320_process_block R.RIPEMD320_compress); auto.
  - intros. now apply process320.
  - now apply st_iv.
Qed.

(** Inverting one transform. *)
Definition untransform4 (F : N -> N -> N -> N) (v : N * N * N * N) (x k s : N) : N * N * N * N :=
  let '(a', b', c', d') := v in
  (minus 32 (minus 32 (minus 32 (rotl 32 (32 - s) b') k) x) (F c' d' a'), c', d', a').
Definition untransform5 (F : N -> N -> N -> N) (v : N * N * N * N * N) (x k s : N) : N * N * N * N * N :=
  let '(a', b', c', d', e') := v in
  let c := rotl 32 (32 - 10) d' in
  (minus 32 (minus 32 (minus 32 (rotl 32 (32 - s) (minus 32 b' a')) k) x) (F c' c e'), c', c, e', a').

Lemma minus_ok x y : ok (minus 32 x y).
Proof. apply (mod_fits 32). Qed.

Lemma rot_l k x : ok x -> k <= 32 -> rotl 32 (32 - k) (rotl 32 k x) = x.
Proof. exact (rotl_rotl 32 k x). Qed.
Lemma rot_r k x : ok x -> k <= 32 -> rotl 32 k (rotl 32 (32 - k) x) = x.
Proof. exact (rotl_rotl' 32 k x). Qed.
Lemma add_sub x y : ok x -> minus 32 (plus32 x y) y = x.
Proof. exact (minus_plus 32 x y). Qed.
Lemma sub_add x y : ok x -> plus32 (minus 32 x y) y = x.
Proof. exact (plus_minus 32 x y). Qed.

Lemma untransform4_l F v x k s : ok4 v -> s <= 32 -> untransform4 F (transform4 F v x k s) x k s = v.
Proof.
  destruct v as [[[a b] c] d]. intros (Ha & Hb & Hc & Hd) Hs. unfold transform4, untransform4. cbv zeta.
  rewrite rot_l by (auto using plus_ok). 
  rewrite !add_sub by (auto; apply (mod_fits 32)). reflexivity.
Qed.
Lemma untransform4_r F v x k s : ok4 v -> s <= 32 -> transform4 F (untransform4 F v x k s) x k s = v.
Proof.
  destruct v as [[[a b] c] d]. intros (Ha & Hb & Hc & Hd) Hs. unfold transform4, untransform4. cbv zeta.
  
  rewrite !sub_add by (auto; first [apply minus_ok|now apply rotl_ok]).
  rewrite rot_r by auto. reflexivity.
Qed.
Lemma untransform4_ok F v x k s : ok4 v -> ok4 (untransform4 F v x k s).
Proof.
  destruct v as [[[a b] c] d]. intros (Ha & Hb & Hc & Hd). unfold untransform4, ok4.
  repeat split; auto using minus_ok.
Qed.
Lemma untransform5_l F v x k s : ok5 v -> s <= 32 -> untransform5 F (transform5 F v x k s) x k s = v.
Proof.
  destruct v as [[[[a b] c] d] e]. intros (Ha & Hb & Hc & Hd & He) Hs. unfold transform5, untransform5. cbv zeta.
  rewrite (rot_l 10 c) by (auto; lia). 
  rewrite (add_sub (rotl 32 s _)) by (apply rotl_ok; apply (mod_fits 32)).
  rewrite rot_l by (auto; apply (mod_fits 32)).
  rewrite !add_sub by (auto; apply (mod_fits 32)). reflexivity.
Qed.
Lemma untransform5_r F v x k s : ok5 v -> s <= 32 -> transform5 F (untransform5 F v x k s) x k s = v.
Proof.
  destruct v as [[[[a b] c] d] e]. intros (Ha & Hb & Hc & Hd & He) Hs. unfold transform5, untransform5. cbv zeta.
  
  rewrite !(sub_add (minus 32 _ _)) by (apply minus_ok).
  rewrite (sub_add (rotl 32 _ _)) by (apply rotl_ok; apply minus_ok).
  rewrite rot_r by (auto; apply minus_ok). rewrite sub_add by auto.
  rewrite (rot_r 10 d) by (auto; lia). reflexivity.
Qed.
Lemma untransform5_ok F v x k s : ok5 v -> ok5 (untransform5 F v x k s).
Proof.
  destruct v as [[[[a b] c] d] e]. intros (Ha & Hb & Hc & Hd & He). unfold untransform5, ok5.
  repeat split; auto using minus_ok. now apply rotl_ok.
Qed.

(** A bijection on the values satisfying [P]. *)
Definition bij_on {A} (P : A -> Prop) (f : A -> A) :=
  exists h, forall v, P v -> P (f v) /\ P (h v) /\ h (f v) = v /\ f (h v) = v.

Lemma bij_comp {A} (P : A -> Prop) f h : bij_on P f -> bij_on P h -> bij_on P (fun v => f (h v)).
Proof.
  intros [f' Hf] [h' Hh]. exists (fun v => h' (f' v)). intros v Hv.
  destruct (Hf v Hv) as (A1 & A2 & A3 & A4). destruct (Hh v Hv) as (B1 & B2 & B3 & B4).
  destruct (Hf _ B1) as (C1 & C2 & C3 & C4). destruct (Hh _ A2) as (D1 & D2 & D3 & D4).
  split; [exact C1|split; [exact D2|split]].
  - now rewrite C3.
  - now rewrite D4.
Qed.

Lemma bij_fold {A B} (P : A -> Prop) (f : A -> B -> A) l :
  (forall i, In i l -> bij_on P (fun v => f v i)) -> bij_on P (fun v => fold_left f l v).
Proof.
  induction l as [|i l IH]; intros H; cbn [fold_left].
  - exists (fun v => v). auto.
  - apply (bij_comp P (fun v => fold_left f l v) (fun v => f v i)).
    + apply IH. intros. apply H. now right.
    + apply H. now left.
Qed.

Lemma shifts_ok j : (j < 80)%nat -> nth j s1 0 <= 32 /\ nth j s2 0 <= 32.
Proof.
  intros Hj. destruct (tables (j / 16) (j mod 16)) as (_ & _ & _ & _ & H); [lia|lia|].
  replace (16 * (j / 16) + j mod 16)%nat with j in H by lia. exact H.
Qed.

Lemma bij_line4 F (tb : list nat) (sb : list N) block k lo :
  (forall j, (j < 80)%nat -> nth j sb 0 <= 32) -> (lo <= 64)%nat ->
  bij_on ok4 (fun v => fold_left (fun u j => transform4 F u (nth (nth j tb 0%nat) block 0) k (nth j sb 0)) (seq lo 16) v).
Proof.
  intros Hs Hl. apply bij_fold. intros j Hj. apply in_seq in Hj. assert (S := Hs j ltac:(lia)).
  exists (fun v => untransform4 F v (nth (nth j tb 0%nat) block 0) k (nth j sb 0)). intros v Hv.
  split; [now apply transform4_spec|]. split; [now apply untransform4_ok|].
  split; [now apply untransform4_l|now apply untransform4_r].
Qed.
Lemma bij_line5 F (tb : list nat) (sb : list N) block k lo :
  (forall j, (j < 80)%nat -> nth j sb 0 <= 32) -> (lo <= 64)%nat ->
  bij_on ok5 (fun v => fold_left (fun u j => transform5 F u (nth (nth j tb 0%nat) block 0) k (nth j sb 0)) (seq lo 16) v).
Proof.
  intros Hs Hl. apply bij_fold. intros j Hj. apply in_seq in Hj. assert (S := Hs j ltac:(lia)).
  exists (fun v => untransform5 F v (nth (nth j tb 0%nat) block 0) k (nth j sb 0)). intros v Hv.
  split; [now apply transform5_spec|]. split; [now apply untransform5_ok|].
  split; [now apply untransform5_l|now apply untransform5_r].
Qed.

(** A product of bijections, and a pair map that is one. *)
Definition line_bij {V} (P : V -> Prop) (f : V * V -> V * V) :=
  exists f1 f2, bij_on P f1 /\ bij_on P f2 /\ forall v, f v = (f1 (fst v), f2 (snd v)).

Lemma line_comp {V} (P : V -> Prop) f h : line_bij P f -> line_bij P h -> line_bij P (fun v => f (h v)).
Proof.
  intros (f1 & f2 & F1 & F2 & E) (h1 & h2 & H1 & H2 & E').
  exists (fun v => f1 (h1 v)), (fun v => f2 (h2 v)).
  split; [now apply bij_comp|]. split; [now apply bij_comp|]. intros v. now rewrite E, E'.
Qed.
Lemma line_pair {V} (P : V -> Prop) f : line_bij P f -> bij_on (okp P) f.
Proof.
  intros (f1 & f2 & (h1 & H1) & (h2 & H2) & E). exists (fun v => (h1 (fst v), h2 (snd v))).
  intros [u v] [Hu Hv]. cbn [fst snd] in *. destruct (H1 u Hu) as (?&?&A&B). destruct (H2 v Hv) as (?&?&C&D).
  rewrite !E. cbn [fst snd]. rewrite A, B, C, D. repeat split; assumption.
Qed.

Lemma loop4_bij block lo F1 k1 F2 k2 : (lo <= 64)%nat -> line_bij ok4 (loop transform4 block lo F1 k1 F2 k2).
Proof.
  intros Hl. eexists. eexists. split; [|split; [|intros v; apply loop_fold]].
  - apply bij_line4; auto. intros. now apply shifts_ok.
  - apply bij_line4; auto. intros. now apply shifts_ok.
Qed.
Lemma loop5_bij block lo F1 k1 F2 k2 : (lo <= 64)%nat -> line_bij ok5 (loop transform5 block lo F1 k1 F2 k2).
Proof.
  intros Hl. eexists. eexists. split; [|split; [|intros v; apply loop_fold]].
  - apply bij_line5; auto. intros. now apply shifts_ok.
  - apply bij_line5; auto. intros. now apply shifts_ok.
Qed.

Lemma lines128_bij block : line_bij ok4 (ripemd128_lines block).
Proof. unfold ripemd128_lines. cbv zeta. do 3 (apply line_comp; [apply loop4_bij; lia|]). apply loop4_bij. lia. Qed.
Lemma lines160_bij block : line_bij ok5 (ripemd160_lines block).
Proof. unfold ripemd160_lines. cbv zeta. do 4 (apply line_comp; [apply loop5_bij; lia|]). apply loop5_bij. lia. Qed.

Lemma exchange4_bij j : bij_on (okp ok4) (R.exchange4 j).
Proof.
  exists (R.exchange4 j). intros v Hv. split; [now apply ex4|]. split; [now apply ex4|].
  destruct v as [[[[a b] c] d] [[[a' b'] c'] d']]. destruct j as [|[|[|]]]; auto.
Qed.
Lemma exchange5_bij j : bij_on (okp ok5) (R.exchange5 j).
Proof.
  exists (R.exchange5 j). intros v Hv. split; [now apply ex5|]. split; [now apply ex5|].
  destruct v as [[[[[a b] c] d] e] [[[[a' b'] c'] d'] e']]. destruct j as [|[|[|[|]]]]; auto.
Qed.

Lemma lines256_bij block : bij_on (okp ok4) (ripemd256_lines block).
Proof.
  unfold ripemd256_lines. cbv zeta.
  apply (bij_comp _ swap_3_7); [exact (exchange4_bij 3)|]. apply bij_comp; [apply line_pair, loop4_bij; lia|].
  apply (bij_comp _ swap_2_6); [exact (exchange4_bij 2)|]. apply bij_comp; [apply line_pair, loop4_bij; lia|].
  apply (bij_comp _ swap_1_5); [exact (exchange4_bij 1)|]. apply bij_comp; [apply line_pair, loop4_bij; lia|].
  apply (bij_comp _ swap_0_4); [exact (exchange4_bij 0)|]. apply line_pair, loop4_bij; lia.
Qed.
Lemma lines320_bij block : bij_on (okp ok5) (ripemd320_lines block).
Proof.
  unfold ripemd320_lines. cbv zeta.
  apply (bij_comp _ swap_4_9); [exact (exchange5_bij 4)|]. apply bij_comp; [apply line_pair, loop5_bij; lia|].
  apply (bij_comp _ swap_2_7); [exact (exchange5_bij 3)|]. apply bij_comp; [apply line_pair, loop5_bij; lia|].
  apply (bij_comp _ swap_0_5); [exact (exchange5_bij 2)|]. apply bij_comp; [apply line_pair, loop5_bij; lia|].
  apply (bij_comp _ swap_3_8); [exact (exchange5_bij 1)|]. apply bij_comp; [apply line_pair, loop5_bij; lia|].
  apply (bij_comp _ swap_1_6); [exact (exchange5_bij 0)|]. apply line_pair, loop5_bij; lia.
Qed.

(** The same in the words of SpecBij.v, for opaque functions (comparing the lines themselves is slow). *)
Lemma to_line4 f : line_bij ok4 f -> exists line1 line2,
  bijective_on words4 line1 /\ bijective_on words4 line2 /\ forall v, f v = (line1 (fst v), line2 (snd v)).
Proof. exact (fun h => h). Qed.
Lemma to_line5 f : line_bij ok5 f -> exists line1 line2,
  bijective_on words5 line1 /\ bijective_on words5 line2 /\ forall v, f v = (line1 (fst v), line2 (snd v)).
Proof. exact (fun h => h). Qed.
Lemma to_pair4 f : bij_on (okp ok4) f -> bijective_on (fun v => words4 (fst v) /\ words4 (snd v)) f.
Proof. exact (fun h => h). Qed.
Lemma to_pair5 f : bij_on (okp ok5) f -> bijective_on (fun v => words5 (fst v) /\ words5 (snd v)) f.
Proof. exact (fun h => h). Qed.
