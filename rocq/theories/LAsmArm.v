(** * The ARMv8 assembly computes the portable permutation *)
From Coq Require Import NArith Arith List Bool Lia ZifyBool ZifyNat ZifyN ZArith.
From Verif Require Import SpecStream MPack LKeccakF LKeccakP MKeccak MAsm MKeccakArm LAsm LAsmRound LAsmX86.
Import ListNotations.
Ltac Zify.zify_post_hook ::= Z.div_mod_to_equations.

(** Between the steps: lane 0 in x0, lane 1 in memory, lanes 2-17 in x2-x17, lane 18 in x30, lanes
    19-24 in x19-x24; x1, x18 and x29 are not touched, x25-x28 are scratch. *)
Definition arm_regs {T} (lane : nat -> T) (x1 x18 x29 : T) (x25 : list T) (sp a : T) : list T :=
  [lane 0; x1] ++ map lane (seq 2 16) ++ [x18] ++ map lane (seq 19 6) ++ x25 ++ [x29; lane 18] ++ [sp; a].

Definition arm_sym : machine symbolic :=
  Build_machine symbolic
    (arm_regs (fun i => SW (svar (N.of_nat i))) (SO 0) (SO 1) (SO 2) (opaques 3 4) (SP 1 32) (SP 0 0)) []
    [[SO 7; SW (svar 1)] ++ opaques 8 23; opaques 31 4].

Definition arm_regs_after (lane : nat -> pat) : list pat :=
  arm_regs lane (Val (SO 0)) (Val (SO 1)) (Val (SO 2)) (repeat Any 4) (Val (SP 1 32)) (Val (SP 0 0)).

Lemma arm_checks_ok : forallb (fun c =>
    check (arm_regs_after (fun i => Exp (nth i (round_exprs c) (EC 0)))) []
      [[Any; Exp (nth 1 (round_exprs c) (EC 0))] ++ repeat Any 23; repeat Any 4]
      (run symbolic s_cnt (arm_step c) arm_sym)) arm_step_constants = true.
Proof. vm_compute. reflexivity. Qed.

(** The loads: registers opaque, memory known. *)
Definition arm_sym_start : machine symbolic :=
  Build_machine symbolic (opaques 0 31 ++ [SP 1 32; SP 0 0]) [] [svars 0 25; opaques 31 4].
Lemma arm_check_load_ok :
  check (arm_regs (fun i => Exp (EV i)) (Val (SO 1)) (Val (SO 18)) (Val (SO 29)) (repeat Any 4) (Val (SP 1 32)) (Val (SP 0 0))) []
    [[Any; Exp (EV 1)] ++ repeat Any 23; repeat Any 4] (run symbolic s_cnt arm_load arm_sym_start) = true.
Proof. vm_compute. reflexivity. Qed.
Lemma arm_check_store_ok :
  check (arm_regs_after (fun i => Exp (EV i))) [] [map (fun i => Exp (EV i)) (seq 0 25); repeat Any 4]
    (run symbolic s_cnt arm_store arm_sym) = true.
Proof. vm_compute. reflexivity. Qed.

Lemma arm_regs_F2 {X Y} (P : X -> Y -> Prop) f g a b c d e h a' b' c' d' e' h' :
  (forall i, i < 25 -> P (f i) (g i)) -> P a a' -> P b b' -> P c c' -> Forall2 P d d' -> P e e' -> P h h' ->
  Forall2 P (arm_regs f a b c d e h) (arm_regs g a' b' c' d' e' h').
Proof.
  intros F Ha Hb Hc Hd He Hh. unfold arm_regs.
  assert (M : forall l, (forall i, In i l -> i < 25) -> Forall2 P (map f l) (map g l)).
  { induction l as [|i l IH]; intros H; cbn; constructor; [apply F, H; now left | apply IH; intros; apply H; now right]. }
  repeat apply Forall2_app; auto.
  - constructor; [apply F; lia | constructor; auto].
  - apply M. intros i Hi. apply in_seq in Hi. lia.
  - apply M. intros i Hi. apply in_seq in Hi. lia.
  - constructor; auto. constructor; [apply F; lia | constructor].
Qed.

Lemma map_F2_inv {X Y} (P : X -> Y -> Prop) (f : nat -> X) (g : nat -> Y) l r :
  (forall i y, In i l -> P (f i) y -> y = g i) -> Forall2 P (map f l) r -> r = map g l.
Proof.
  revert r. induction l as [|i l IH]; cbn [map]; intros r F H.
  - now apply F2_nil_inv in H.
  - apply F2_cons_inv in H as (y & r' & -> & H1 & H2). f_equal; [apply F; auto; now left|].
    apply IH; auto. intros j y' Hj. apply F. now right.
Qed.

Lemma arm_regs_inv {X Y} (P : X -> Y -> Prop) f g a b c d e h l :
  (forall i y, i < 25 -> P (f i) y -> y = g i) -> Forall2 P (arm_regs f a b c d e h) l ->
  exists a' b' c' d' e' h', l = arm_regs g a' b' c' d' e' h' /\ P a a' /\ P b b' /\ P c c' /\ Forall2 P d d' /\ P e e' /\ P h h'.
Proof.
  intros F H. unfold arm_regs in H.
  apply F2_app_inv in H as (l1 & t1 & -> & H1 & H). apply F2_app_inv in H as (l2 & t2 & -> & H2 & H).
  apply F2_app_inv in H as (l3 & t3 & -> & H3 & H). apply F2_app_inv in H as (l4 & t4 & -> & H4 & H).
  apply F2_app_inv in H as (l5 & t5 & -> & H5 & H). apply F2_app_inv in H as (l6 & l7 & -> & H6 & H7).
  apply F2_cons_inv in H1 as (y0 & ? & -> & E0 & H1). apply F2_cons_inv in H1 as (y1 & ? & -> & E1 & H1). apply F2_nil_inv in H1. subst.
  apply F2_cons_inv in H3 as (y18 & ? & -> & E18 & H3). apply F2_nil_inv in H3. subst.
  apply F2_cons_inv in H6 as (y29 & ? & -> & E29 & H6). apply F2_cons_inv in H6 as (y30 & ? & -> & E30 & H6). apply F2_nil_inv in H6. subst.
  apply F2_cons_inv in H7 as (ysp & ? & -> & Esp & H7). apply F2_cons_inv in H7 as (ya & ? & -> & Ea & H7). apply F2_nil_inv in H7. subst.
  apply (map_F2_inv P f g) in H2; [|intros i y Hi; apply F; apply in_seq in Hi; lia].
  apply (map_F2_inv P f g) in H4; [|intros i y Hi; apply F; apply in_seq in Hi; lia].
  apply F in E0, E30; try lia. subst.
  exists y1, y18, y29, l5, ysp, ya. repeat split; auto.
Qed.

Definition arm_mk (st : list N) (x1 x18 x29 : cval) (x25 : list cval) (m0 : cval) (ms stack : list cval) : c_machine :=
  c_state (arm_regs (fun i => CW (nth i st 0%N)) x1 x18 x29 x25 (CP 1 32) (CP 0 0)) []
    [[m0; CW (nth 1 st 0%N)] ++ ms; stack].

Lemma arm_sym_rel st x1 x18 x29 x25 m0 ms stack : block_ok 64 25 st ->
  length x25 = 4 -> length ms = 23 -> length stack = 4 ->
  exists oe, oe 0%N = x1 /\ oe 1%N = x18 /\ oe 2%N = x29 /\
    Forall2 (rel (word_env st) oe) (regs symbolic arm_sym) (regs concrete (arm_mk st x1 x18 x29 x25 m0 ms stack)) /\
    Forall2 (Forall2 (rel (word_env st) oe)) (objects symbolic arm_sym) (objects concrete (arm_mk st x1 x18 x29 x25 m0 ms stack)).
Proof.
  intros [Hlen Hfit] H1 H2 H3. apply fits_lt in Hfit. pose proof (env_lt st Hfit) as Henv.
  pose proof (opaques_rel (word_env st) [x1; x18; x29] x25 ([m0] ++ ms ++ stack)) as G1.
  pose proof (opaques_rel (word_env st) ([x1; x18; x29] ++ x25) [m0] (ms ++ stack)) as G2.
  pose proof (opaques_rel (word_env st) ([x1; x18; x29] ++ x25 ++ [m0]) ms stack) as G3.
  pose proof (opaques_rel (word_env st) ([x1; x18; x29] ++ x25 ++ [m0] ++ ms) stack []) as G4.
  rewrite ?app_nil_r, <- ?app_assoc in *.
  rewrite ?app_length in G2; rewrite ?app_length in G3; rewrite ?app_length in G4.
  rewrite H1 in G1, G2, G3, G4; rewrite H2 in G3, G4; rewrite H3 in G4. cbn in G1, G2, G3, G4.
  exists (obj_env ([x1; x18; x29] ++ x25 ++ [m0] ++ ms ++ stack)). do 3 (split; [reflexivity|]).
  assert (V : forall i oe, rel (word_env st) oe (SW (svar (N.of_nat i))) (CW (nth i st 0%N))).
  { intros i oe. cbn [rel]. pose proof (svar_rep (word_env st) Henv (N.of_nat i)) as R. unfold word_env in R at 2.
    now rewrite Nat2N.id in R. }
  split.
  - cbn [arm_sym arm_mk c_state regs]. apply arm_regs_F2; auto; cbn [rel]; auto.
  - cbn [arm_sym arm_mk c_state objects]. constructor; [|constructor; [exact G4 | constructor]].
    constructor; [|constructor]; [|apply (V 1) | exact G3].
    apply F2_cons_inv in G2 as (? & ? & [= <- <-] & G & _). exact G.
Qed.

Lemma arm_iter st c x1 x18 x29 x25 m0 ms stack : In c arm_step_constants -> block_ok 64 25 st ->
  length x25 = 4 -> length ms = 23 -> length stack = 4 ->
  exists x25' m0' ms' stack', c_run (arm_step c) (arm_mk st x1 x18 x29 x25 m0 ms stack) =
     Some (arm_mk (keccak_round st c) x1 x18 x29 x25' m0' ms' stack') /\
     length x25' = 4 /\ length ms' = 23 /\ length stack' = 4.
Proof.
  intros Hc Hst H1 H2 H3.
  pose proof (proj1 (forallb_forall _ arm_step_constants) arm_checks_ok c Hc) as C. cbv beta in C.
  destruct (arm_sym_rel st x1 x18 x29 x25 m0 ms stack Hst H1 H2 H3) as (oe & O0 & O1 & O2 & S1 & S2).
  destruct Hst as [Hlen Hfit]. apply fits_lt in Hfit.
  destruct (check_run st oe Hfit (arm_step c) arm_sym (arm_mk st x1 x18 x29 x25 m0 ms stack) _ _ _ C S1 (Forall2_nil _) S2)
    as (rs' & vs' & os' & E & R1 & R2 & R3).
  apply F2_nil_inv in R2. subst vs'.
  apply F2_cons_inv in R3 as (a & os1 & -> & Ra & R3). apply F2_cons_inv in R3 as (sk & os2 & -> & Rs & R3). apply F2_nil_inv in R3. subst os2.
  apply F2_app_inv in Ra as (a1 & ms' & -> & Ra & Rm).
  apply F2_cons_inv in Ra as (m0' & ? & -> & _ & Ra). apply F2_cons_inv in Ra as (m1 & ? & -> & Rm1 & Ra). apply F2_nil_inv in Ra. subst.
  cbn [holds] in Rm1. subst m1.
  assert (N1 : forall i, i < 25 -> ev st (nth i (round_exprs c) (EC 0)) = nth i (keccak_round st c) 0%N).
  { intros i Hi. rewrite <- round_exprs_ev. rewrite <- (map_nth (ev st)). reflexivity. }
  unfold arm_regs_after in R1.
  apply (arm_regs_inv _ _ (fun i => CW (nth i (keccak_round st c) 0%N))) in R1
    as (y1 & y18 & y29 & x25' & sp & pa & -> & B1 & B18 & B29 & B25 & Bsp & Bpa).
  2: { intros i y Hi Hy. cbn [holds] in Hy. subst y. f_equal. now apply N1. }
  cbn [holds rel] in B1, B18, B29. subst y1 y18 y29.
  pose proof (holds_ptrs' st oe [(1, 32%Z)] [sp]) as P1. cbn [sptrs cptrs map] in P1. specialize (P1 ltac:(constructor; [exact Bsp | constructor])).
  injection P1 as ->.
  pose proof (holds_ptrs' st oe [(0, 0%Z)] [pa]) as P2. cbn [sptrs cptrs map] in P2. specialize (P2 ltac:(constructor; [exact Bpa | constructor])).
  injection P2 as ->.
  rewrite N1 in E by lia.
  apply holds_len in B25, Rm, Rs. rewrite repeat_length in B25, Rm, Rs.
  exists x25', m0', ms', sk. split; [|auto]. rewrite E. reflexivity.
Qed.

Lemma run_app p q m : c_run (p ++ q) m = bind (c_run p m) (c_run q).
Proof.
  revert m. induction p as [|i p IH]; intros m; [reflexivity|]. cbn [app].
  change (c_run (i :: p ++ q) m) with (bind (step concrete c_count i m) (c_run (p ++ q))).
  change (c_run (i :: p) m) with (bind (step concrete c_count i m) (c_run p)).
  destruct (step concrete c_count i m) as [m'|]; cbn [bind]; [apply IH | reflexivity].
Qed.

Lemma arm_steps cs : forall st x1 x18 x29 x25 m0 ms stack, incl cs arm_step_constants -> block_ok 64 25 st ->
  length x25 = 4 -> length ms = 23 -> length stack = 4 ->
  exists x25' m0' ms' stack', c_run (concat (map arm_step cs)) (arm_mk st x1 x18 x29 x25 m0 ms stack) =
     Some (arm_mk (fold_left keccak_round cs st) x1 x18 x29 x25' m0' ms' stack') /\
     length x25' = 4 /\ length ms' = 23 /\ length stack' = 4.
Proof.
  induction cs as [|c cs IH]; intros st x1 x18 x29 x25 m0 ms stack Hi Hst H1 H2 H3.
  - exists x25, m0, ms, stack. split; [reflexivity | auto].
  - cbn [map concat fold_left]. rewrite run_app.
    assert (Hc : In c arm_step_constants) by (apply Hi; now left).
    destruct (arm_iter st c x1 x18 x29 x25 m0 ms stack) as (x25' & m0' & ms' & sk & -> & L1 & L2 & L3); auto.
    cbn [bind]. apply IH; auto. { intros x Hx. apply Hi. now right. }
    apply keccak_round_fits; [apply Hst|].
    apply (proj1 (Forall_forall (fits 64) round_constants) round_constants_fits). exact Hc.
Qed.

Lemma map_nth_seq {T} (l : list T) (d : T) {U} (f : T -> U) : map f (map (fun i => nth i l d) (seq 0 (length l))) = map f l.
Proof.
  f_equal. induction l as [|x l IH]; [reflexivity|]. cbn [length seq map nth]. f_equal.
  rewrite <- seq_shift, map_map. exact IH.
Qed.

Lemma arm_exec_ok rs stack st : length rs = 31 -> length stack = 4 -> block_ok 64 25 st ->
  exists x25 lane stack',
    arm_exec rs stack st = Some (c_state (arm_regs lane (nth 1 rs (CW 0)) (nth 18 rs (CW 0)) (nth 29 rs (CW 0)) x25 (CP 1 32) (CP 0 0)) []
      [map CW (permute st); stack']) /\ length stack' = 4 /\ length x25 = 4.
Proof.
  intros Hr Hs Hst. unfold arm_exec, arm_program. rewrite run_app.
  pose proof Hst as [Hlen Hfit]. apply fits_lt in Hfit. pose proof (env_lt st Hfit) as Henv.
  pose proof arm_check_load_ok as C.
  pose proof (opaques_rel (word_env st) [] rs stack) as G1.
  pose proof (opaques_rel (word_env st) rs stack []) as G2. rewrite app_nil_r in G2.
  rewrite Hr in G1, G2. rewrite Hs in G2. cbn [app length N.of_nat] in G1.
  destruct (check_run st (obj_env (rs ++ stack)) Hfit arm_load arm_sym_start (arm_start rs stack st) _ _ _ C)
    as (rs' & vs' & os' & E & R1 & R2 & R3).
  - cbn [arm_sym_start arm_start c_state regs]. rewrite firstn_all2 by lia. apply Forall2_app; [exact G1|]. repeat constructor.
  - constructor.
  - cbn [arm_sym_start arm_start c_state objects]. constructor; [|constructor; [exact G2 | constructor]].
    rewrite <- Hlen. apply svars_rel; auto. intros k Hk. unfold word_env. f_equal. lia.
  - rewrite E. cbn [bind]. rewrite run_app.
    apply F2_nil_inv in R2. subst vs'.
    apply F2_cons_inv in R3 as (a & os1 & -> & Ra & R3). apply F2_cons_inv in R3 as (sk & os2 & -> & Rs & R3). apply F2_nil_inv in R3. subst os2.
    apply F2_app_inv in Ra as (a1 & ms' & -> & Ra & Rm).
    apply F2_cons_inv in Ra as (m0' & ? & -> & _ & Ra). apply F2_cons_inv in Ra as (m1 & ? & -> & Rm1 & Ra). apply F2_nil_inv in Ra. subst.
    cbn [holds ev] in Rm1. subst m1.
    apply (arm_regs_inv _ _ (fun i => CW (nth i st 0%N))) in R1
      as (y1 & y18 & y29 & x25' & sp & pa & -> & B1 & B18 & B29 & B25 & Bsp & Bpa).
    2: { intros i y Hi Hy. exact Hy. }
    cbn [holds rel] in B1, B18, B29.
    pose proof (holds_ptrs' st (obj_env (rs ++ stack)) [(1, 32%Z)] [sp]) as P1. cbn [sptrs cptrs map] in P1. specialize (P1 ltac:(constructor; [exact Bsp | constructor])).
    injection P1 as ->.
    pose proof (holds_ptrs' st (obj_env (rs ++ stack)) [(0, 0%Z)] [pa]) as P2. cbn [sptrs cptrs map] in P2. specialize (P2 ltac:(constructor; [exact Bpa | constructor])).
    injection P2 as ->.
    apply holds_len in B25, Rm, Rs. rewrite repeat_length in B25, Rm, Rs.
    destruct (arm_steps arm_step_constants st y1 y18 y29 x25' m0' ms' sk (incl_refl _) Hst B25 Rm Rs)
      as (x25 & m0 & ms & stk & E2 & L1 & L2 & L3).
    change (c_state (arm_regs (fun i => CW (nth i st 0%N)) y1 y18 y29 x25' (CP 1 32) (CP 0 0)) [] [[m0'; CW (nth 1 st 0%N)] ++ ms'; sk])
      with (arm_mk st y1 y18 y29 x25' m0' ms' sk).
    rewrite E2. cbn [bind]. clear E E2 C.
    change arm_step_constants with round_constants. fold (permute st).
    pose proof (permute_ok st Hst) as Hp.
    destruct (arm_sym_rel (permute st) y1 y18 y29 x25 m0 ms stk Hp L1 L2 L3) as (oe & O0 & O1 & O2 & S1 & S2).
    destruct Hp as [Lp Fp]. apply fits_lt in Fp.
    destruct (check_run (permute st) oe Fp arm_store arm_sym (arm_mk (permute st) y1 y18 y29 x25 m0 ms stk) _ _ _ arm_check_store_ok S1 (Forall2_nil _) S2)
      as (rs2 & vs2 & os2 & E & R1 & R2 & R3).
    rewrite E. apply F2_nil_inv in R2. subst vs2.
    apply F2_cons_inv in R3 as (a & os1 & -> & Ra & R3). apply F2_cons_inv in R3 as (sk2 & os3 & -> & Rs2 & R3). apply F2_nil_inv in R3. subst os3.
    rewrite <- (map_map EV Exp) in Ra. apply holds_exps in Ra. rewrite (map_map EV) in Ra. cbn [ev] in Ra.
    rewrite <- Lp in Ra. rewrite map_nth_seq in Ra. subst a.
    apply holds_len in Rs2. rewrite repeat_length in Rs2.
    unfold arm_regs_after in R1.
    apply (arm_regs_inv _ _ (fun i => CW (nth i (permute st) 0%N))) in R1
      as (z1 & z18 & z29 & x25'' & sp & pa & -> & D1 & D18 & D29 & D25 & Dsp & Dpa).
    2: { intros i y Hi Hy. exact Hy. }
    cbn [holds rel] in D1, D18, D29. rewrite O0 in D1. rewrite O1 in D18. rewrite O2 in D29. subst z1 z18 z29.
    pose proof (holds_ptrs' (permute st) oe [(1, 32%Z)] [sp]) as P1. cbn [sptrs cptrs map] in P1. specialize (P1 ltac:(constructor; [exact Dsp | constructor])).
    injection P1 as ->.
    pose proof (holds_ptrs' (permute st) oe [(0, 0%Z)] [pa]) as P2. cbn [sptrs cptrs map] in P2. specialize (P2 ltac:(constructor; [exact Dpa | constructor])).
    injection P2 as ->.
    apply holds_len in D25. rewrite repeat_length in D25.
    exists x25'', (fun i => CW (nth i (permute st) 0%N)), sk2. split; [|auto].
    unfold obj_env in B1, B18, B29. rewrite app_nth1 in B1, B18, B29 by (rewrite Hr; cbn; lia).
    subst y1 y18 y29. reflexivity.
Qed.

Theorem arm_permute_ok rs stack st : length rs = 31 -> length stack = 4 -> block_ok 64 25 st ->
  arm_permute rs stack st = Some (permute st).
Proof.
  intros Hr Hs Hst. unfold arm_permute. destruct (arm_exec_ok rs stack st Hr Hs Hst) as (x25 & lane & sk & -> & _).
  cbn [c_state objects]. apply words_of_map.
Qed.

Theorem arm_registers rs stack st : length rs = 31 -> length stack = 4 -> block_ok 64 25 st ->
  exists m, arm_exec rs stack st = Some m /\
    forall r, In r [1; 18; 29; 31; 32] -> get concrete m r = get concrete (arm_start rs stack st) r.
Proof.
  intros Hr Hs Hst. destruct (arm_exec_ok rs stack st Hr Hs Hst) as (x25 & lane & sk & -> & _ & L).
  eexists. split; [reflexivity|]. do 32 (destruct rs as [|? rs]; try discriminate).
  do 5 (destruct x25 as [|? x25]; try discriminate).
  intros r H. cbn in H. repeat (destruct H as [<- | H]; [reflexivity|]). contradiction.
Qed.
