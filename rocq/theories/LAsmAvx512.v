(** * The AVX-512 assembly: what the loop computes, and what the function does *)
From Coq Require Import NArith Arith List Bool Lia ZifyBool ZifyNat ZifyN ZArith.
From Verif Require Import SpecStream MPack LKeccakF LKeccakP LKeccakBij MKeccak MAsm MKeccakAvx512 LAsm LAsmRound LAsmX86 LAsmArm LAsmAvx2.
Import ListNotations.
Ltac Zify.zify_post_hook ::= Z.div_mod_to_equations.

(** ** The loop, from a state with the words in the low lanes and the masks set *)
Definition row {T} (f : nat -> T) (z : T) (l : list nat) : list T := map f l ++ repeat z 3.
Definition low_rows : list (list nat) := [[0;1;2;3;4]; [5;6;7;8;9]; [10;11;12;13;14]; [15;16;17;18;19]; [20;21;22;23;24]].
Definition mid_rows : list (list nat) := [[20;1;7;13;19]; [15;21;2;8;14]; [10;16;22;3;9]; [5;11;17;23;4]; [0;6;12;18;24]].

(** Where the next round starts in the body. *)
Definition half1 : list instr := firstn 54 avx512_body.
Definition half2 : list instr := skipn 54 avx512_body.

Definition z_regs {T} (rax : T) (g1 : list T) (r10 : T) (g2 ks g3 : list T) : list T := [rax] ++ g1 ++ [r10] ++ g2 ++ ks ++ g3.
Definition z_masks : list N := [1; 2; 4; 8; 16]%N.
Definition z_low {T} (f : nat -> T) (z : T) (g t : list (list T)) : list (list T) := map (row f z) low_rows ++ g ++ t.
Definition z_mid {T} (f : nat -> T) (z : T) (g0 : list T) (g t : list (list T)) : list (list T) :=
  [g0] ++ map (row f z) mid_rows ++ g ++ t.
Definition anys (n : nat) : list (list pat) := repeat (repeat Any 8) n.
Definition word_var (k : nat) : sval := SW (svar (N.of_nat k)).

Definition z_sym_regs (i : nat) (p : Z) : list sval :=
  z_regs (kc (12 - N.of_nat i)) (opaques 0 9) (SP 0 p) (opaques 9 6) (map kc z_masks) (opaques 15 2).
Definition z_sym1 (i : nat) : machine symbolic :=
  Build_machine symbolic (z_sym_regs i (16 * Z.of_nat i))
    (z_low word_var (kc 0) (opaque_mat 8 17 8) (map (map kc) avx512_tables)) [map kc avx512_round_constants].
Definition z_sym2 (i : nat) : machine symbolic :=
  Build_machine symbolic (z_sym_regs i (16 * Z.of_nat (S i)))
    (z_mid word_var (kc 0) (opaques 17 8) (opaque_mat 8 25 7) (map (map kc) avx512_tables)) [map kc avx512_round_constants].

Definition zero_lane : pat := Exp (EX (EC 0) (EA (EN (EC 0)) (EC 0))).
Definition out_word (c : N) (k : nat) : pat := Exp (nth k (round_exprs c) (EC 0)).

Lemma half1_checks : forallb (fun i =>
    check (map Val (z_sym_regs i (16 * Z.of_nat (S i))))
      (z_mid (out_word (nth (2 * i) round_constants 0%N)) zero_lane (repeat Any 8) (anys 7) (map (map Val) (map (map kc) avx512_tables)))
      [map Val (map kc avx512_round_constants)] (run symbolic s_cnt half1 (z_sym1 i))) (seq 0 12) = true.
Proof. vm_compute. reflexivity. Qed.
Lemma half2_checks : forallb (fun i =>
    check (map Val (z_sym_regs (S i) (16 * Z.of_nat (S i))))
      (z_low (out_word (nth (2 * i + 1) round_constants 0%N)) zero_lane (anys 8) (map (map Val) (map (map kc) avx512_tables)))
      [map Val (map kc avx512_round_constants)] (run symbolic s_cnt half2 (z_sym2 i))) (seq 0 12) = true.
Proof. vm_compute. reflexivity. Qed.

(** ** The same states of a run *)
Definition z_run_regs (i : nat) (p : Z) (g1 g2 g3 : list cval) : list cval :=
  z_regs (CW (12 - N.of_nat i)) g1 (CP 0 p) g2 (map CW z_masks) g3.
Definition z_mk1 (i : nat) (g1 g2 g3 : list cval) (vs : list (list cval)) (st : list N) : c_machine :=
  c_state (z_run_regs i (16 * Z.of_nat i) g1 g2 g3)
    (z_low (fun k => CW (nth k st 0%N)) (CW 0) vs (map (map CW) avx512_tables)) [map CW avx512_round_constants].
Definition z_mk2 (i : nat) (g1 g2 g3 : list cval) (v0 : list cval) (vs : list (list cval)) (st : list N) : c_machine :=
  c_state (z_run_regs i (16 * Z.of_nat (S i)) g1 g2 g3)
    (z_mid (fun k => CW (nth k st 0%N)) (CW 0) v0 vs (map (map CW) avx512_tables)) [map CW avx512_round_constants].

Lemma tables_lt : Forall (Forall (fun w => w < 2 ^ 64)%N) avx512_tables.
Proof. repeat constructor. Qed.
Lemma rc_lt : Forall (fun w => w < 2 ^ 64)%N avx512_round_constants.
Proof. repeat constructor. Qed.

Lemma mat_rel env oe T : (forall v, env v < 2 ^ 64)%N -> Forall (Forall (fun w => w < 2 ^ 64)%N) T ->
  Forall2 (Forall2 (rel env oe)) (map (map kc) T) (map (map CW) T).
Proof. intros Henv. induction 1; cbn [map]; constructor; auto. now apply consts_rel. Qed.
Lemma mat_val st oe T l : Forall (fun w => w < 2 ^ 64)%N st -> Forall (Forall (fun w => w < 2 ^ 64)%N) T ->
  Forall2 (Forall2 (holds st oe)) (map (map Val) (map (map kc) T)) l -> l = map (map CW) T.
Proof.
  intros Hst HT. revert l. induction HT as [|r T H1 H2 IH]; cbn [map]; intros l H.
  - now apply F2_nil_inv in H.
  - apply F2_cons_inv in H as (y & l' & -> & Hy & Hl). f_equal; [|now apply IH].
    apply val_consts in Hy; auto.
Qed.
Lemma mat_any st oe n l : Forall2 (Forall2 (holds st oe)) (anys n) l -> length l = n /\ Forall (fun r => length r = 8) l.
Proof.
  unfold anys. revert l. induction n as [|n IH]; cbn [repeat]; intros l H.
  - apply F2_nil_inv in H. subst. auto.
  - apply F2_cons_inv in H as (y & l' & -> & Hy & Hl). destruct (IH l' Hl) as [L F]. cbn [length]. split; [lia|].
    constructor; auto. apply holds_len in Hy. exact Hy.
Qed.
Lemma rows_F2 {X Y} (P : X -> Y -> Prop) f g z w rows : (forall k, P (f k) (g k)) -> P z w ->
  Forall2 (Forall2 P) (map (row f z) rows) (map (row g w) rows).
Proof.
  intros F Z. induction rows as [|r rows IH]; cbn [map]; constructor; auto. unfold row. apply Forall2_app.
  - clear IH. induction r; cbn [map]; constructor; auto.
  - repeat constructor; auto.
Qed.
Lemma rows_inv {X Y} (P : X -> Y -> Prop) f g z w rows l : (forall k y, P (f k) y -> y = g k) -> (forall y, P z y -> y = w) ->
  Forall2 (Forall2 P) (map (row f z) rows) l -> l = map (row g w) rows.
Proof.
  intros F Z. revert l. induction rows as [|r rows IH]; cbn [map]; intros l H.
  - now apply F2_nil_inv in H.
  - apply F2_cons_inv in H as (y & l' & -> & Hy & Hl). f_equal; [|now apply IH].
    unfold row in *. apply F2_app_inv in Hy as (a & b & -> & Ha & Hb). f_equal.
    + apply (map_F2_inv P f g); auto.
    + cbn [repeat] in *. apply F2_cons_inv in Hb as (? & ? & -> & B1 & Hb). apply F2_cons_inv in Hb as (? & ? & -> & B2 & Hb).
      apply F2_cons_inv in Hb as (? & ? & -> & B3 & Hb). apply F2_nil_inv in Hb. subst. apply Z in B1, B2, B3. now subst.
Qed.

(** Register relations: given the relations of the garbage *)
Lemma z_regs_rel st oe i p g1 g2 g3 : Forall (fun w => w < 2 ^ 64)%N st ->
  Forall2 (rel (word_env st) oe) (opaques 0 9) g1 -> Forall2 (rel (word_env st) oe) (opaques 9 6) g2 ->
  Forall2 (rel (word_env st) oe) (opaques 15 2) g3 ->
  Forall2 (rel (word_env st) oe) (z_sym_regs i p) (z_run_regs i p g1 g2 g3).
Proof.
  intros Hst G1 G2 G3. pose proof (env_lt st Hst) as Henv. unfold z_sym_regs, z_run_regs, z_regs.
  repeat apply Forall2_app; auto.
  - constructor; [|constructor]. cbn [rel kc]. apply sconst_rep'; auto. lia.
  - constructor; [|constructor]. cbn. auto.
  - apply consts_rel; auto. repeat constructor.
Qed.
Lemma z_regs_val st oe i p g1 g2 g3 l : Forall (fun w => w < 2 ^ 64)%N st ->
  Forall2 (rel (word_env st) oe) (opaques 0 9) g1 -> Forall2 (rel (word_env st) oe) (opaques 9 6) g2 ->
  Forall2 (rel (word_env st) oe) (opaques 15 2) g3 ->
  Forall2 (holds st oe) (map Val (z_sym_regs i p)) l -> l = z_run_regs i p g1 g2 g3.
Proof.
  intros Hst G1 G2 G3 H. unfold z_sym_regs, z_run_regs, z_regs in *. rewrite !map_app in H.
  apply F2_app_inv in H as (ra & t & -> & H1 & H). apply F2_app_inv in H as (a1 & t1 & -> & H2 & H).
  apply F2_app_inv in H as (r10 & t2 & -> & H3 & H). apply F2_app_inv in H as (a2 & t3 & -> & H4 & H).
  apply F2_app_inv in H as (ms & a3 & -> & H5 & H6).
  apply (holds_opaques _ _ _ _ _ _ H2) in G1. apply (holds_opaques _ _ _ _ _ _ H4) in G2. apply (holds_opaques _ _ _ _ _ _ H6) in G3.
  subst a1 a2 a3.
  cbn [map] in H1. apply F2_cons_inv in H1 as (x & t & -> & H1 & Hn). apply F2_nil_inv in Hn. subst t.
  apply val_const in H1; [|lia | exact Hst]. subst x.
  apply (holds_ptrs' st oe [(0, p)] r10) in H3. subst r10.
  apply (val_consts st oe z_masks ms) in H5; [|repeat constructor | exact Hst]. subst ms. reflexivity.
Qed.

Lemma z_half1 i st g1 g2 g3 vs : i < 12 -> block_ok 64 25 st -> length g1 = 9 -> length g2 = 6 -> length g3 = 2 ->
  length vs = 8 -> Forall (fun l => length l = 8) vs ->
  exists v0 vs', c_run half1 (z_mk1 i g1 g2 g3 vs st) =
      Some (z_mk2 i g1 g2 g3 v0 vs' (keccak_round st (nth (2 * i) round_constants 0%N))) /\
    length v0 = 8 /\ length vs' = 7 /\ Forall (fun l => length l = 8) vs'.
Proof.
  intros Hi [Hlen Hfit] H1 H2 H3 H4 H5. apply fits_lt in Hfit. pose proof (env_lt st Hfit) as Henv.
  assert (Hin : In i (seq 0 12)) by (apply in_seq; lia).
  pose proof (proj1 (forallb_forall _ (seq 0 12)) half1_checks i Hin) as C. cbv beta in C.
  pose proof (opaques_rel (word_env st) [] g1 (g2 ++ g3 ++ concat vs)) as G1.
  pose proof (opaques_rel (word_env st) g1 g2 (g3 ++ concat vs)) as G2.
  pose proof (opaques_rel (word_env st) (g1 ++ g2) g3 (concat vs)) as G3.
  pose proof (opaque_mat_rel 8 (word_env st) (g1 ++ g2 ++ g3) vs [] H5) as G4.
  rewrite ?app_nil_r, <- ?app_assoc in *. cbn [app] in G1.
  rewrite ?app_length in G2; rewrite ?app_length in G3; rewrite ?app_length in G4.
  rewrite H1 in G1; rewrite H1, H2 in G2; rewrite H1, H2, H3 in G3; rewrite H1, H2, H3, H4 in G4.
  remember (obj_env (g1 ++ g2 ++ g3 ++ concat vs)) as oe eqn:Eoe. clear Eoe.
  destruct (check_run st oe Hfit half1 (z_sym1 i) (z_mk1 i g1 g2 g3 vs st) _ _ _ C)
    as (rs' & vs' & os' & E & R1 & R2 & R3); cbn [z_sym1 z_mk1 c_state regs vregs objects].
  - apply z_regs_rel; auto.
  - unfold z_low. apply Forall2_app; [|apply Forall2_app; [exact G4 | apply mat_rel; auto; apply tables_lt]].
    apply rows_F2; [intros k | apply sconst_rep'; auto; lia].
    pose proof (svar_rep (word_env st) Henv (N.of_nat k)) as R. unfold word_env in R at 2. now rewrite Nat2N.id in R.
  - constructor; [|constructor]. apply consts_rel; auto. apply rc_lt.
  - apply (z_regs_val st oe i _ g1 g2 g3) in R1; auto. subst rs'.
    apply F2_cons_inv in R3 as (o & t & -> & Q & Hn). apply F2_nil_inv in Hn. subst t.
    apply val_consts in Q; auto; [|apply rc_lt]. subst o.
    unfold z_mid in R2. apply F2_app_inv in R2 as (a0 & t & -> & A0 & R2). apply F2_app_inv in R2 as (rows & t1 & -> & Ar & R2).
    apply F2_app_inv in R2 as (gs & ts & -> & Ag & At).
    apply F2_cons_inv in A0 as (v0 & t & -> & A0 & Hn). apply F2_nil_inv in Hn. subst t.
    apply holds_len in A0. rewrite repeat_length in A0. apply mat_any in Ag as [Lg Fg]. apply mat_val in At; auto; [|apply tables_lt]. subst ts.
    apply (rows_inv _ _ (fun k => CW (nth k (keccak_round st (nth (2 * i) round_constants 0%N)) 0%N)) _ (CW 0)) in Ar.
    2: { intros k y Hy. cbn [holds out_word] in Hy. subst y. f_equal. rewrite <- round_exprs_ev. rewrite <- (map_nth (ev st)). reflexivity. }
    2: { intros y Hy. exact Hy. }
    subst rows. exists v0, gs. auto.
Qed.

Lemma z_half2 i st g1 g2 g3 v0 vs : i < 12 -> block_ok 64 25 st -> length g1 = 9 -> length g2 = 6 -> length g3 = 2 ->
  length v0 = 8 -> length vs = 7 -> Forall (fun l => length l = 8) vs ->
  exists vs', c_run half2 (z_mk2 i g1 g2 g3 v0 vs st) =
      Some (z_mk1 (S i) g1 g2 g3 vs' (keccak_round st (nth (2 * i + 1) round_constants 0%N))) /\
    length vs' = 8 /\ Forall (fun l => length l = 8) vs'.
Proof.
  intros Hi [Hlen Hfit] H1 H2 H3 H0 H4 H5. apply fits_lt in Hfit. pose proof (env_lt st Hfit) as Henv.
  assert (Hin : In i (seq 0 12)) by (apply in_seq; lia).
  pose proof (proj1 (forallb_forall _ (seq 0 12)) half2_checks i Hin) as C. cbv beta in C.
  pose proof (opaques_rel (word_env st) [] g1 (g2 ++ g3 ++ v0 ++ concat vs)) as G1.
  pose proof (opaques_rel (word_env st) g1 g2 (g3 ++ v0 ++ concat vs)) as G2.
  pose proof (opaques_rel (word_env st) (g1 ++ g2) g3 (v0 ++ concat vs)) as G3.
  pose proof (opaques_rel (word_env st) (g1 ++ g2 ++ g3) v0 (concat vs)) as G0.
  pose proof (opaque_mat_rel 8 (word_env st) (g1 ++ g2 ++ g3 ++ v0) vs [] H5) as G4.
  rewrite ?app_nil_r, <- ?app_assoc in *. cbn [app] in G1.
  rewrite ?app_length in G2; rewrite ?app_length in G3; rewrite ?app_length in G4; rewrite ?app_length in G0.
  rewrite H1 in G1; rewrite H1, H2 in G2; rewrite H1, H2, H3 in G3; rewrite H1, H2, H3, H0 in G0; rewrite H1, H2, H3, H4, H0 in G4.
  remember (obj_env (g1 ++ g2 ++ g3 ++ v0 ++ concat vs)) as oe eqn:Eoe. clear Eoe.
  destruct (check_run st oe Hfit half2 (z_sym2 i) (z_mk2 i g1 g2 g3 v0 vs st) _ _ _ C)
    as (rs' & vs' & os' & E & R1 & R2 & R3); cbn [z_sym2 z_mk2 c_state regs vregs objects].
  - apply z_regs_rel; auto.
  - unfold z_mid. apply Forall2_app; [constructor; [exact G0 | constructor]|].
    apply Forall2_app; [|apply Forall2_app; [exact G4 | apply mat_rel; auto; apply tables_lt]].
    apply rows_F2; [intros k | apply sconst_rep'; auto; lia].
    pose proof (svar_rep (word_env st) Henv (N.of_nat k)) as R. unfold word_env in R at 2. now rewrite Nat2N.id in R.
  - constructor; [|constructor]. apply consts_rel; auto. apply rc_lt.
  - apply (z_regs_val st oe (S i) _ g1 g2 g3) in R1; auto. subst rs'.
    apply F2_cons_inv in R3 as (o & t & -> & Q & Hn). apply F2_nil_inv in Hn. subst t.
    apply val_consts in Q; auto; [|apply rc_lt]. subst o.
    unfold z_low in R2. apply F2_app_inv in R2 as (rows & t1 & -> & Ar & R2).
    apply F2_app_inv in R2 as (gs & ts & -> & Ag & At).
    apply mat_any in Ag as [Lg Fg]. apply mat_val in At; auto; [|apply tables_lt]. subst ts.
    apply (rows_inv _ _ (fun k => CW (nth k (keccak_round st (nth (2 * i + 1) round_constants 0%N)) 0%N)) _ (CW 0)) in Ar.
    2: { intros k y Hy. cbn [holds out_word] in Hy. subst y. f_equal. rewrite <- round_exprs_ev. rewrite <- (map_nth (ev st)). reflexivity. }
    2: { intros y Hy. exact Hy. }
    subst rows. exists gs. auto.
Qed.

Lemma avx512_split : avx512_body = half1 ++ half2.
Proof. reflexivity. Qed.

Lemma z_get i g1 g2 g3 vs st : get concrete (z_mk1 i g1 g2 g3 vs st) 0 = Some (CW (12 - N.of_nat i)).
Proof. reflexivity. Qed.

Lemma z_loop_ok n : forall i fuel st g1 g2 g3 vs, i + S n = 12 -> S n <= fuel -> block_ok 64 25 st ->
  length g1 = 9 -> length g2 = 6 -> length g3 = 2 -> length vs = 8 -> Forall (fun l => length l = 8) vs ->
  exists vs', c_loop fuel 0 avx512_body (z_mk1 i g1 g2 g3 vs st) =
      Some (z_mk1 12 g1 g2 g3 vs' (fold_left keccak_round (skipn (2 * i) round_constants) st)).
Proof.
  assert (K : forall j st, j < 24 -> block_ok 64 25 st -> block_ok 64 25 (keccak_round st (nth j round_constants 0%N))).
  { intros j st Hj Hst. apply keccak_round_fits; [apply Hst|].
    apply (proj1 (Forall_forall (fits 64) round_constants) round_constants_fits). apply nth_In. cbn [length round_constants]. lia. }
  induction n as [|n IH]; intros i fuel st g1 g2 g3 vs Hi Hf Hst H1 H2 H3 H4 H5.
  all: destruct fuel as [|fuel]; [lia|].
  all: destruct (z_half1 i st g1 g2 g3 vs) as (v0 & vs1 & E1 & L0 & L1 & F1); auto; [lia|].
  all: destruct (z_half2 i (keccak_round st (nth (2 * i) round_constants 0%N)) g1 g2 g3 v0 vs1) as (vs' & E2 & L2 & F2); auto; [lia | apply K; auto; lia|].
  all: change (c_loop (S fuel) 0 avx512_body (z_mk1 i g1 g2 g3 vs st)) with
    (bind (c_run avx512_body (z_mk1 i g1 g2 g3 vs st)) (fun m' => bind (get concrete m' 0)
       (fun c => bind (v_zero concrete c) (fun z : bool => if z then Some m' else c_loop fuel 0 avx512_body m')))).
  all: change (c_run avx512_body) with (c_run (half1 ++ half2)); rewrite run_app, E1; cbn [bind]; rewrite E2; cbn [bind].
  all: rewrite z_get.
  all: cbn [bind v_zero concrete].
  all: rewrite (skipn_nth 0%N _ (2 * i)) by (cbn [length round_constants]; lia).
  all: rewrite (skipn_nth 0%N _ (S (2 * i))) by (cbn [length round_constants]; lia).
  all: replace (S (2 * i)) with (2 * i + 1) by lia; replace (S (2 * i + 1)) with (2 * S i) by lia; cbn [fold_left].
  - assert (i = 11) by lia. subst i. cbn [N.eqb N.sub N.of_nat]. exists vs'. reflexivity.
  - replace (12 - N.of_nat (S i) =? 0)%N with false by lia.
    apply IH; auto; try lia. apply K; [lia|]. apply K; auto; lia.
Qed.

Lemma z_read i g1 g2 g3 vs st : length st = 25 -> avx512_read (z_mk1 i g1 g2 g3 vs st) = Some st.
Proof.
  intros H. unfold avx512_read. rewrite <- (words_of_map st). f_equal.
  rewrite <- (map_nth_seq st 0%N), H, map_map. reflexivity.
Qed.

Definition low_lanes : list (list (option nat)) := map (row Some None) low_rows.

Theorem avx512_loop_ok fuel rs vs st : 12 <= fuel -> length rs = 24 -> firstn 5 (skipn 17 rs) = map CW [1; 2; 4; 8; 16]%N ->
  length vs = 8 -> Forall (fun l => length l = 8) vs -> block_ok 64 25 st ->
  exists m, avx512_exec fuel low_lanes rs vs st = Some m /\ avx512_read m = Some (permute st).
Proof.
  intros Hf Hr Hm Hv Fv Hst.
  do 25 (destruct rs as [|? rs]; try discriminate). clear Hr. cbn [skipn firstn map] in Hm.
  injection Hm as -> -> -> -> ->.
  destruct (z_loop_ok 11 0 fuel st [c0; c1; c2; c3; c4; c5; c6; c7; c8] [c10; c11; c12; c13; c14; c15] [c21; c22] vs) as (vs' & E); auto.
  eexists. split.
  - unfold avx512_exec. 
    match goal with |- match c_run avx512_prologue ?m with _ => _ end = _ => 
      replace (c_run avx512_prologue m) with (Some (z_mk1 0 [c0; c1; c2; c3; c4; c5; c6; c7; c8] [c10; c11; c12; c13; c14; c15] [c21; c22] vs st)) end.
    + exact E.
    + unfold avx512_start. rewrite (firstn_all2 vs) by lia. reflexivity.
  - change (fold_left keccak_round (skipn (2 * 0) round_constants) st) with (permute st). apply z_read. apply permute_ok, Hst.
Qed.

(** ** The lanes 5, 6 and 7 never reach the others *)
Inductive lowrel : nat -> list cval -> list cval -> Prop :=
| lr_nil n : lowrel n [] []
| lr_same n a x y : lowrel n x y -> lowrel (S n) (CW a :: x) (CW a :: y)
| lr_any a b x y : lowrel 0 x y -> lowrel 0 (CW a :: x) (CW b :: y).
Definition low5 (x y : list cval) : Prop := lowrel 5 x y /\ length x = 8.

Definition opt_rel {X} (P : X -> X -> Prop) (a b : option X) : Prop :=
  match a, b with Some x, Some y => P x y | None, None => True | _, _ => False end.
Lemma opt_rel_bind {X Y} (P : X -> X -> Prop) (Q : Y -> Y -> Prop) a b f g :
  opt_rel P a b -> (forall x y, P x y -> opt_rel Q (f x) (g y)) -> opt_rel Q (bind a f) (bind b g).
Proof. destruct a, b; cbn; try contradiction; auto. Qed.

Lemma lowrel_length n x y : lowrel n x y -> length y = length x.
Proof. induction 1; cbn; auto. Qed.

Lemma low_lanes1 f n x y : lowrel n x y -> opt_rel (fun u v => lowrel n u v /\ length u = length x) (lanes1 concrete (word1 f) x) (lanes1 concrete (word1 f) y).
Proof.
  induction 1; cbn; [split; [constructor | reflexivity] | |];
  (eapply opt_rel_bind; [exact IHlowrel|]; intros u v [Hu Lu]; cbn; split; [constructor; auto | lia]).
Qed.
Lemma low_lanes2 f n x y x' y' : lowrel n x y -> lowrel n x' y' -> length x = length x' ->
  opt_rel (fun u v => lowrel n u v /\ length u = length x) (lanes2 concrete (word2 f) x x') (lanes2 concrete (word2 f) y y').
Proof.
  intros H. revert x' y'. induction H; intros x' y' H' L; inversion H'; subst; cbn in L; try discriminate; cbn.
  - split; [constructor | reflexivity].
  - eapply opt_rel_bind; [apply IHlowrel; eauto; lia|]. intros u v [Hu Lu]. cbn. split; [constructor; auto | lia].
  - eapply opt_rel_bind; [apply IHlowrel; eauto; lia|]. intros u v [Hu Lu]. cbn. split; [constructor; auto | lia].
Qed.
Lemma low_rolv n x y x' y' : lowrel n x y -> lowrel n x' y' -> length x = length x' ->
  opt_rel (fun u v => lowrel n u v /\ length u = length x)
    (lanes2 concrete (shift_by concrete c_count (fun k => v_rol concrete (k mod 64))) x x')
    (lanes2 concrete (shift_by concrete c_count (fun k => v_rol concrete (k mod 64))) y y').
Proof.
  intros H. revert x' y'. induction H; intros x' y' H' L; inversion H'; subst; cbn in L; try discriminate; cbn.
  - split; [constructor | reflexivity].
  - eapply opt_rel_bind; [apply IHlowrel; eauto; lia|]. intros u v [Hu Lu]. cbn. split; [constructor; auto | lia].
  - eapply opt_rel_bind; [apply IHlowrel; eauto; lia|]. intros u v [Hu Lu]. cbn. split; [constructor; auto | lia].
Qed.
Lemma low_blend n : forall mask x y x' y', lowrel n x y -> lowrel n x' y' -> length x = length x' ->
  opt_rel (fun u v => lowrel n u v /\ length u = length x) (blend concrete mask x x') (blend concrete mask y y').
Proof.
  intros mask x y x' y' H. revert mask x' y'. induction H; intros mask x' y' H' L; inversion H'; subst; cbn in L; try discriminate; cbn.
  - split; [constructor | reflexivity].
  - eapply opt_rel_bind; [apply IHlowrel; eauto; lia|]. intros u v [Hu Lu]. cbn. destruct (N.testbit mask 0); split; try (constructor; auto); lia.
  - eapply opt_rel_bind; [apply IHlowrel; eauto; lia|]. intros u v [Hu Lu]. cbn. destruct (N.testbit mask 0); split; try (constructor; auto); lia.
Qed.
Lemma low_masked (m m' : c_machine) b n : (forall off, load concrete m b off = load concrete m' b off) ->
  forall off mask x y x' y', lowrel n x y -> lowrel n x' y' -> length x = length x' ->
  opt_rel (fun u v => lowrel n u v /\ length u = length x) (masked_xor concrete m b off mask x x') (masked_xor concrete m' b off mask y y').
Proof.
  intros HL off mask x y x' y' H. revert off mask x' y'. induction H; intros off mask x' y' H' L; inversion H'; subst; cbn in L; try discriminate; cbn.
  - split; [constructor | reflexivity].
  - rewrite HL. destruct (N.testbit mask 0); [destruct (load concrete m' b off) as [[w|o z]|]; cbn; auto|]; cbn;
    (eapply opt_rel_bind; [apply IHlowrel; eauto; lia|]; intros u v [Hu Lu]; cbn; split; [constructor; auto | lia]).
  - rewrite HL. destruct (N.testbit mask 0); [destruct (load concrete m' b off) as [[w|o z]|]; cbn; auto|]; cbn;
    (eapply opt_rel_bind; [apply IHlowrel; eauto; lia|]; intros u v [Hu Lu]; cbn; split; [constructor; auto | lia]).
Qed.

(** The index vectors: theta1-4 and pi0-4 in zmm13-zmm21. *)
Definition index_regs : list nat := seq 13 9.
Definition agree (m m' : c_machine) : Prop :=
  regs concrete m = regs concrete m' /\ objects concrete m = objects concrete m' /\
  Forall2 low5 (vregs concrete m) (vregs concrete m') /\
  (forall r, In r index_regs -> getv concrete m r = Some (map CW (nth (r - 13) avx512_tables [])) /\
                                getv concrete m' r = Some (map CW (nth (r - 13) avx512_tables []))).

Lemma low_permq r x y : In r index_regs -> low5 x y ->
  opt_rel low5 (bind (counts concrete c_count (map CW (nth (r - 13) avx512_tables []))) (fun c => pick concrete x (map (fun k => N.to_nat (k mod 8)) c)))
               (bind (counts concrete c_count (map CW (nth (r - 13) avx512_tables []))) (fun c => pick concrete y (map (fun k => N.to_nat (k mod 8)) c))).
Proof.
  intros Hr [H L].
  repeat match goal with H : lowrel _ _ _ |- _ => inversion H; clear H; subst; cbn [length] in L; try discriminate L end.
  unfold index_regs in Hr. cbn [seq In] in Hr.
  repeat (destruct Hr as [<- | Hr]; [cbn; split; [repeat constructor | reflexivity]|]). contradiction.
Qed.
Lemma agree_getv m m' r : agree m m' -> opt_rel low5 (getv concrete m r) (getv concrete m' r).
Proof.
  intros (_ & _ & H & _). unfold getv. revert r. induction H; intros [|r]; cbn; auto.
Qed.
Lemma upd_rel {T} (P : T -> T -> Prop) l l' d x y : Forall2 P l l' -> P x y -> opt_rel (Forall2 P) (upd l d x) (upd l' d y).
Proof.
  intros H Hx. revert d. induction H as [|u v l l' Huv H IH]; intros [|d]; cbn [upd opt_rel]; auto.
  specialize (IH d). destruct (upd l d x), (upd l' d y); cbn [opt_rel] in *; auto.
Qed.
Lemma agree_setv m m' d x y : agree m m' -> low5 x y -> ~ In d index_regs -> opt_rel agree (setv concrete m d x) (setv concrete m' d y).
Proof.
  intros (H1 & H2 & H3 & H4) Hx Hd. unfold setv.
  assert (K : opt_rel (Forall2 low5) (upd (vregs concrete m) d x) (upd (vregs concrete m') d y)).
  { now apply upd_rel. }
  destruct (upd (vregs concrete m) d x) as [a|] eqn:Ea, (upd (vregs concrete m') d y) as [b|] eqn:Eb; cbn in K |- *; auto; try contradiction.
  split; [exact H1|]. split; [exact H2|]. split; [exact K|]. intros r Hr. unfold getv. cbn [vregs].
  rewrite (upd_nth _ _ _ _ r Ea), (upd_nth _ _ _ _ r Eb). destruct (Nat.eqb_spec r d); [now subst|]. now apply H4.
Qed.
Lemma agree_get m m' r : agree m m' -> get concrete m r = get concrete m' r.
Proof. intros (H & _). unfold get. now rewrite H. Qed.
Lemma agree_set m m' d x : agree m m' -> opt_rel agree (set concrete m d x) (set concrete m' d x).
Proof.
  intros (H1 & H2 & H3 & H4). unfold set. rewrite <- H1. destruct (upd (regs concrete m) d x); cbn; auto.
  split; [reflexivity|]. split; [exact H2|]. split; [exact H3|]. exact H4.
Qed.
Lemma agree_load m m' b off : agree m m' -> load concrete m b off = load concrete m' b off.
Proof. intros (H1 & H2 & _). unfold load, cell, get. now rewrite H1, H2. Qed.

(** The instructions of the body. *)
Definition allowed (i : instr) : bool :=
  let free d := negb (existsb (Nat.eqb d) index_regs) in
  match i with
  | x_lea _ _ _ | x_lea_o _ _ | x_dec _ | x_mov_i _ _ => true
  | z_mov _ d | z_ternlog _ _ _ d | z_prolq _ _ d | z_prolvq _ _ d | z_pxorq_l _ _ _ d _ | z_blendm _ _ d _ => free d
  | z_permq _ idx d => free d && existsb (Nat.eqb idx) index_regs
  | _ => false
  end.
Lemma free_spec d : negb (existsb (Nat.eqb d) index_regs) = true -> ~ In d index_regs.
Proof.
  intros H Hin. apply negb_true_iff in H. assert (existsb (Nat.eqb d) index_regs = true); [|congruence].
  apply existsb_exists. exists d. split; auto. apply Nat.eqb_refl.
Qed.
Lemma step_agree i m m' : allowed i = true -> agree m m' -> opt_rel agree (step concrete c_count i m) (step concrete c_count i m').
Proof.
  intros Ha H. destruct i; try discriminate Ha; cbn [step allowed] in *.
  - now apply agree_set.
  - rewrite (agree_get _ _ _ H). destruct (get concrete m' b) as [p|]; cbn [bind opt_rel]; auto.
    destruct (v_to_ptr concrete p); cbn [bind opt_rel]; auto. now apply agree_set.
  - now apply agree_set.
  - rewrite (agree_get _ _ _ H). destruct (get concrete m' d) as [p|]; cbn [bind opt_rel]; auto.
    destruct (v_dec concrete p); cbn [bind opt_rel]; auto. now apply agree_set.
  - apply free_spec in Ha. eapply opt_rel_bind; [now apply agree_getv|]. intros x y Hx. now apply agree_setv.
  - apply free_spec in Ha. eapply opt_rel_bind; [now apply agree_getv|]. intros x y [Hx Lx].
    eapply opt_rel_bind; [now apply agree_getv|]. intros x2 y2 [Hx2 Lx2].
    eapply opt_rel_bind; [now apply agree_getv|]. intros x3 y3 [Hx3 Lx3].
    destruct (imm =? 150)%N; [|destruct (imm =? 210)%N; [|exact I]].
    + eapply opt_rel_bind; [apply low_lanes2; [exact Hx | exact Hx2 | congruence]|]. intros t u [Ht Lt].
      eapply opt_rel_bind; [apply low_lanes2; [exact Ht | exact Hx3 | congruence]|]. intros r r' [Hr Lr].
      apply agree_setv; auto. split; auto. congruence.
    + eapply opt_rel_bind; [apply low_lanes1; exact Hx2|]. intros n n' [Hn Ln].
      eapply opt_rel_bind; [apply low_lanes2; [exact Hn | exact Hx3 | congruence]|]. intros t u [Ht Lt].
      eapply opt_rel_bind; [apply low_lanes2; [exact Hx | exact Ht | congruence]|]. intros r r' [Hr Lr].
      apply agree_setv; auto. split; auto. congruence.
  - apply free_spec in Ha. eapply opt_rel_bind; [now apply agree_getv|]. intros x y [Hx Lx].
    eapply opt_rel_bind; [apply low_lanes1; exact Hx|]. intros r r' [Hr Lr]. apply agree_setv; auto. split; auto. congruence.
  - apply andb_prop in Ha as [Ha Hi]. apply free_spec in Ha.
    assert (Hin : In idx index_regs) by (apply existsb_exists in Hi as (z & Hz & Ez); apply Nat.eqb_eq in Ez; now subst).
    eapply opt_rel_bind; [now apply agree_getv|]. intros x y Hx.
    pose proof H as (_ & _ & _ & H4). destruct (H4 idx Hin) as [-> ->].
    change (bind (Some ?v) ?f) with (f v). cbv beta.
    pose proof (low_permq idx x y Hin Hx) as P.
    destruct (counts concrete c_count (map CW (nth (idx - 13) avx512_tables []))) as [c|]; cbn [bind] in *; auto.
    eapply opt_rel_bind; [exact P|]. intros u v Hu. now apply agree_setv.
  - apply free_spec in Ha. eapply opt_rel_bind; [now apply agree_getv|]. intros x y [Hx Lx].
    eapply opt_rel_bind; [now apply agree_getv|]. intros x2 y2 [Hx2 Lx2].
    eapply opt_rel_bind; [apply low_rolv; [exact Hx2 | exact Hx | congruence]|]. intros r r' [Hr Lr].
    apply agree_setv; auto. split; auto. congruence.
  - apply free_spec in Ha. eapply opt_rel_bind; [now apply agree_getv|]. intros x y [Hx Lx].
    eapply opt_rel_bind; [now apply agree_getv|]. intros x2 y2 [Hx2 Lx2].
    rewrite (agree_get _ _ _ H). destruct (get concrete m' k) as [q|]; cbn [bind opt_rel]; auto.
    destruct (c_count q) as [mask|]; cbn [bind opt_rel]; auto.
    eapply opt_rel_bind; [apply low_masked; [intros; now apply agree_load | exact Hx | exact Hx2 | congruence]|]. intros r r' [Hr Lr].
    apply agree_setv; auto. split; auto. congruence.
  - apply free_spec in Ha. eapply opt_rel_bind; [now apply agree_getv|]. intros x y [Hx Lx].
    eapply opt_rel_bind; [now apply agree_getv|]. intros x2 y2 [Hx2 Lx2].
    rewrite (agree_get _ _ _ H). destruct (get concrete m' k) as [q|]; cbn [bind opt_rel]; auto.
    destruct (c_count q) as [mask|]; cbn [bind opt_rel]; auto.
    eapply opt_rel_bind; [apply low_blend; [exact Hx | exact Hx2 | congruence]|]. intros r r' [Hr Lr].
    apply agree_setv; auto. split; auto. congruence.
Qed.
Lemma run_agree p : forallb allowed p = true -> forall m m', agree m m' -> opt_rel agree (c_run p m) (c_run p m').
Proof.
  induction p as [|i p IH]; cbn [forallb]; intros Hp m m' H; [exact H|]. apply andb_prop in Hp as [Hi Hp].
  change (opt_rel agree (bind (step concrete c_count i m) (c_run p)) (bind (step concrete c_count i m') (c_run p))).
  eapply opt_rel_bind; [now apply step_agree|]. now apply IH.
Qed.
Lemma loop_agree p : forallb allowed p = true -> forall fuel m m', agree m m' -> opt_rel agree (c_loop fuel 0 p m) (c_loop fuel 0 p m').
Proof.
  intros Hp. induction fuel as [|fuel IH]; intros m m' H; [exact I|].
  change (opt_rel agree
    (bind (c_run p m) (fun m1 => bind (get concrete m1 0) (fun c => bind (v_zero concrete c) (fun z : bool => if z then Some m1 else c_loop fuel 0 p m1))))
    (bind (c_run p m') (fun m1 => bind (get concrete m1 0) (fun c => bind (v_zero concrete c) (fun z : bool => if z then Some m1 else c_loop fuel 0 p m1))))).
  eapply opt_rel_bind; [now apply run_agree|]. intros a b Hab. rewrite (agree_get _ _ _ Hab).
  destruct (get concrete b 0) as [x|]; cbn [bind opt_rel]; auto.
  destruct (v_zero concrete x) as [[]|]; cbn [bind opt_rel]; auto.
Qed.
Lemma body_allowed : forallb allowed avx512_body = true.
Proof. vm_compute. reflexivity. Qed.

Lemma low5_nth x y k : low5 x y -> k < 5 -> nth k x (CP 0 0) = nth k y (CP 0 0).
Proof.
  intros [H L] Hk.
  repeat match goal with H : lowrel _ _ _ |- _ => inversion H; clear H; subst; cbn [length] in L; try discriminate L end.
  do 5 (destruct k as [|k]; [reflexivity|]). lia.
Qed.
Lemma read_agree m m' : agree m m' -> avx512_read m = avx512_read m'.
Proof.
  intros (_ & _ & H & _). unfold avx512_read. f_equal. apply map_ext_in. intros [v k] Hin. cbn [fst snd].
  assert (Hk : k < 5).
  { assert (Forall (fun p : nat * nat => snd p < 5) avx512_outputs) as F by (repeat constructor).
    rewrite Forall_forall in F. apply (F _ Hin). }
  revert v Hin. generalize dependent (vregs concrete m'). generalize (vregs concrete m). clear m m'.
  intros l l' H v _. revert v. induction H; intros [|v]; cbn; auto.
  - now apply low5_nth.
Qed.

Theorem avx512_independent fuel rs vs st st' :
  length vs = 8 -> Forall (fun l => length l = 8) vs -> (forall i, i mod 5 < 2 -> nth i st 0%N = nth i st' 0%N) ->
  avx512_permute fuel rs (map (map CW) vs) st = avx512_permute fuel rs (map (map CW) vs) st'.
Proof.
  intros Hv Fv Hst. unfold avx512_permute, avx512_exec.
  assert (A : agree (avx512_start avx512_lanes rs (map (map CW) vs) st) (avx512_start avx512_lanes rs (map (map CW) vs) st')).
  { unfold agree, avx512_start, c_state. cbn [regs objects vregs]. split; [reflexivity|]. split; [reflexivity|].
    rewrite (firstn_all2 (map _ vs)) by (rewrite map_length; lia). split.
    - apply Forall2_app.
      + unfold avx512_lanes. cbn [map]. rewrite (Hst 0 ltac:(cbn; lia)), (Hst 1 ltac:(cbn; lia)), (Hst 5 ltac:(cbn; lia)), (Hst 6 ltac:(cbn; lia)), (Hst 10 ltac:(cbn; lia)), (Hst 11 ltac:(cbn; lia)), (Hst 15 ltac:(cbn; lia)), (Hst 16 ltac:(cbn; lia)), (Hst 20 ltac:(cbn; lia)), (Hst 21 ltac:(cbn; lia)).
        repeat (constructor; [split; [repeat constructor | reflexivity]|]). constructor.
      + apply Forall2_app.
        * clear - Fv. induction Fv as [|l vs H F IH]; cbn [map]; constructor; auto.
          split; [|now rewrite map_length]. generalize 5. clear. induction l as [|a l IH]; intros [|n]; cbn [map]; constructor; auto.
        * clear. assert (F : Forall (fun l => length l = 8) avx512_tables) by (repeat constructor).
          induction F as [|l T H F IH]; cbn [map]; constructor; auto.
          split; [|now rewrite map_length]. generalize 5. clear. induction l as [|a l IH]; intros [|n]; cbn [map]; constructor; auto.
    - intros r Hr. unfold getv. cbn [vregs].
      do 9 (destruct vs as [|? vs]; try discriminate). clear - Hr. unfold index_regs in Hr. cbn [seq In] in Hr.
      repeat (destruct Hr as [<- | Hr]; [split; reflexivity|]). contradiction. }
  pose proof (run_agree avx512_prologue eq_refl _ _ A) as P.
  destruct (c_run avx512_prologue (avx512_start avx512_lanes rs (map (map CW) vs) st)) as [m|],
           (c_run avx512_prologue (avx512_start avx512_lanes rs (map (map CW) vs) st')) as [m'|]; cbn [opt_rel] in P; try contradiction; auto.
  pose proof (loop_agree avx512_body body_allowed fuel m m' P) as Q.
  destruct (c_loop fuel 0 avx512_body m) as [n|], (c_loop fuel 0 avx512_body m') as [n'|]; cbn [opt_rel] in Q; try contradiction; auto.
  now apply read_agree.
Qed.
