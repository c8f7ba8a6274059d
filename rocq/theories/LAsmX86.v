(** * The x86-64 assembly computes the portable permutation *)
From Coq Require Import NArith Arith List Bool Lia ZifyBool ZifyNat ZifyN ZArith.
From Verif Require Import SpecStream MPack LKeccakF LKeccakP MKeccak MAsm MKeccakX86 LAsm LAsmRound.
Import ListNotations.
Ltac Zify.zify_post_hook ::= Z.div_mod_to_equations.

(** Registers 0-7 and 14 are not touched, 8-12 and 15 are scratch, 13 counts. *)
Definition x86_consts : list sval := map (fun n => SW (sconst n)) x86_round_constants.
Definition x86_ptrs (i : nat) : list sval := [SP 0 0; SP 1 0; SP 2 0; SP 3 (8 * Z.of_nat i)].

Definition x86_sym (i : nat) : machine symbolic :=
  Build_machine symbolic
    (opaques 0 8 ++ opaques 8 5 ++ [SW (sconst (24 - N.of_nat i))] ++ opaques 13 1 ++ opaques 14 1 ++ x86_ptrs i) []
    [svars 0 25; opaques 15 10; opaques 25 25; x86_consts].
Definition x86_regs_after (i : nat) : list pat :=
  map Val (opaques 0 8) ++ repeat Any 5 ++ [Val (SW (sconst (24 - N.of_nat (S i))))] ++ map Val (opaques 13 1) ++
  repeat Any 1 ++ map Val (x86_ptrs (S i)).
Definition x86_objects_after (c : N) : list (list pat) :=
  [map Exp (round_exprs c); repeat Any 10; repeat Any 25; map Val x86_consts].

Definition x86_check_at (i : nat) : bool :=
  check (x86_regs_after i) [] (x86_objects_after (nth i round_constants 0%N)) (run symbolic s_cnt x86_body (x86_sym i)).
Lemma x86_checks_ok : forallb x86_check_at (seq 0 24) = true.
Proof. vm_compute. reflexivity. Qed.
Lemma x86_check_i i : i < 24 -> x86_check_at i = true.
Proof. intros H. apply (proj1 (forallb_forall x86_check_at (seq 0 24)) x86_checks_ok). apply in_seq. lia. Qed.

Definition x86_mk (i : nat) (g1 g2 g3 g4 c0 b0 : list cval) (st : list N) : c_machine :=
  c_state (g1 ++ g2 ++ [CW (24 - N.of_nat i)] ++ g3 ++ g4 ++ [CP 0 0; CP 1 0; CP 2 0; CP 3 (8 * Z.of_nat i)]) []
    [map CW st; c0; b0; map CW x86_round_constants].

Lemma x86_consts_lt : Forall (fun w => w < 2 ^ 64)%N x86_round_constants.
Proof. repeat constructor. Qed.

Lemma x86_iter i st g1 g2 g3 g4 c0 b0 : i < 24 -> block_ok 64 25 st ->
  length g1 = 8 -> length g2 = 5 -> length g3 = 1 -> length g4 = 1 -> length c0 = 10 -> length b0 = 25 ->
  exists g2' g4' c1 b1,
    c_run x86_body (x86_mk i g1 g2 g3 g4 c0 b0 st) =
      Some (x86_mk (S i) g1 g2' g3 g4' c1 b1 (keccak_round st (nth i round_constants 0%N))) /\
    length g2' = 5 /\ length g4' = 1 /\ length c1 = 10 /\ length b1 = 25.
Proof.
  intros Hi [Hlen Hfit] H1 H2 H3 H4 Hc Hb. apply fits_lt in Hfit.
  pose proof (x86_check_i i Hi) as C. unfold x86_check_at in C.
  pose proof (env_lt st Hfit) as Henv.
  pose proof (opaques_rel (word_env st) [] g1 (g2 ++ g3 ++ g4 ++ c0 ++ b0)) as G1.
  pose proof (opaques_rel (word_env st) g1 g2 (g3 ++ g4 ++ c0 ++ b0)) as G2.
  pose proof (opaques_rel (word_env st) (g1 ++ g2) g3 (g4 ++ c0 ++ b0)) as G3.
  pose proof (opaques_rel (word_env st) (g1 ++ g2 ++ g3) g4 (c0 ++ b0)) as G4.
  pose proof (opaques_rel (word_env st) (g1 ++ g2 ++ g3 ++ g4) c0 b0) as Gc.
  pose proof (opaques_rel (word_env st) (g1 ++ g2 ++ g3 ++ g4 ++ c0) b0 []) as Gb.
  rewrite ?app_nil_r, <- ?app_assoc in *. cbn [app] in G1.
  rewrite ?app_length in G2; rewrite ?app_length in G3; rewrite ?app_length in G4; rewrite ?app_length in Gc; rewrite ?app_length in Gb.
  rewrite H1 in G1; rewrite H1, H2 in G2; rewrite H1, H2, H3 in G3; rewrite H1, H2, H3, H4 in G4;
    rewrite H1, H2, H3, H4, Hc in Gc; rewrite H1, H2, H3, H4, Hc, Hb in Gb.
  remember (obj_env (g1 ++ g2 ++ g3 ++ g4 ++ c0 ++ b0)) as oe eqn:Eoe. clear Eoe.
  destruct (check_run st oe Hfit x86_body (x86_sym i) (x86_mk i g1 g2 g3 g4 c0 b0 st) _ _ _ C)
    as (rs' & vs' & os' & E & R1 & R2 & R3); cbn [x86_sym x86_mk c_state regs vregs objects].
  - repeat apply Forall2_app; auto.
    + constructor; [|constructor]. cbn [rel]. apply sconst_rep'; auto. clear - Hi. lia.
    + repeat constructor.
  - constructor.
  - constructor; [|constructor; [|constructor; [|constructor; [|constructor]]]]; auto.
    + rewrite <- Hlen. apply svars_rel; auto. intros k Hk. unfold word_env. f_equal. lia.
    + apply consts_rel; auto. apply x86_consts_lt.
  - apply F2_nil_inv in R2. subst vs'. unfold x86_objects_after in R3.
    apply F2_cons_inv in R3 as (a & os1 & -> & Ra & R3). apply F2_cons_inv in R3 as (c1 & os2 & -> & Rc & R3).
    apply F2_cons_inv in R3 as (b1 & os3 & -> & Rb & R3). apply F2_cons_inv in R3 as (k1 & os4 & -> & Rk & R3).
    apply F2_nil_inv in R3. subst os4.
    apply holds_exps in Ra. rewrite round_exprs_ev in Ra. subst a.
    apply val_consts in Rk; [|apply x86_consts_lt | exact Hfit]. subst k1.
    unfold x86_regs_after in R1. apply F2_app_inv in R1 as (r1 & t1 & -> & R1 & T).
    apply F2_app_inv in T as (r2 & t2 & -> & R2 & T). apply F2_app_inv in T as (r5 & t3 & -> & R5 & T).
    apply F2_app_inv in T as (r3 & t4 & -> & R3 & T). apply F2_app_inv in T as (r4 & ps & -> & R4 & T).
    apply (holds_opaques _ _ _ _ _ _ R1) in G1. apply (holds_opaques _ _ _ _ _ _ R3) in G3. subst r1 r3.
    apply F2_cons_inv in R5 as (x & t & -> & R5 & Rn). apply F2_nil_inv in Rn. subst t.
    apply val_const in R5; [|clear - Hi; lia | exact Hfit]. subst x.
    apply (holds_ptrs' _ _ [(0, 0%Z); (1, 0%Z); (2, 0%Z); (3, (8 * Z.of_nat (S i))%Z)]) in T. cbn [cptrs] in T. subst ps.
    apply holds_len in Rc, Rb, R2, R4. rewrite repeat_length in Rc, Rb, R2, R4.
    exists r2, r4, c1, b1. split; [exact E|]. auto.
Qed.

Lemma x86_get13 i g1 g2 g3 g4 c0 b0 st : length g1 = 8 -> length g2 = 5 ->
  get concrete (x86_mk i g1 g2 g3 g4 c0 b0 st) 13 = Some (CW (24 - N.of_nat i)).
Proof.
  intros H1 H2. unfold get, x86_mk, c_state. cbn [regs].
  rewrite nth_error_app2 by lia. rewrite nth_error_app2 by lia. rewrite H1, H2. reflexivity.
Qed.

Lemma skipn_nth {T} (d : T) l i : i < length l -> skipn i l = nth i l d :: skipn (S i) l.
Proof. revert i. induction l as [|x l IH]; intros [|i]; cbn; try lia; auto. intros. rewrite IH by lia. reflexivity. Qed.

Lemma x86_loop_ok n : forall i fuel st g1 g2 g3 g4 c0 b0, i + S n = 24 -> S n <= fuel -> block_ok 64 25 st ->
  length g1 = 8 -> length g2 = 5 -> length g3 = 1 -> length g4 = 1 -> length c0 = 10 -> length b0 = 25 ->
  exists g2' g4' c1 b1,
    c_loop fuel 13 x86_body (x86_mk i g1 g2 g3 g4 c0 b0 st) =
      Some (x86_mk 24 g1 g2' g3 g4' c1 b1 (fold_left keccak_round (skipn i round_constants) st)) /\
    length g2' = 5 /\ length g4' = 1 /\ length c1 = 10 /\ length b1 = 25.
Proof.
  induction n as [|n IH]; intros i fuel st g1 g2 g3 g4 c0 b0 Hi Hf Hst H1 H2 H3 H4 Hc Hb.
  all: destruct fuel as [|fuel]; [lia|].
  all: destruct (x86_iter i st g1 g2 g3 g4 c0 b0) as (g2' & g4' & c1 & b1 & E & L2 & L4 & Lc & Lb); auto; [lia|].
  all: change (c_loop (S fuel) 13 x86_body (x86_mk i g1 g2 g3 g4 c0 b0 st)) with
    (bind (c_run x86_body (x86_mk i g1 g2 g3 g4 c0 b0 st)) (fun m' => bind (get concrete m' 13)
       (fun c => bind (v_zero concrete c) (fun z : bool => if z then Some m' else c_loop fuel 13 x86_body m')))).
  all: rewrite E; cbn [bind]; rewrite x86_get13 by auto; cbn [bind v_zero concrete].
  all: rewrite (skipn_nth 0%N) by (cbn [length round_constants]; lia); cbn [fold_left].
  - assert (i = 23) by lia. subst i. cbn [N.eqb N.sub N.of_nat]. exists g2', g4', c1, b1. split; [reflexivity | auto].
  - replace (24 - N.of_nat (S i) =? 0)%N with false by lia.
    apply IH; auto; try lia. apply keccak_round_fits; [apply Hst|].
    apply (proj1 (Forall_forall (fits 64) round_constants) round_constants_fits). apply nth_In. cbn [length round_constants]. lia.
Qed.

Lemma x86_exec_ok fuel rs c0 b0 st : 24 <= fuel -> length rs = 16 -> length c0 = 10 -> length b0 = 25 -> block_ok 64 25 st ->
  exists g2 g4 c1 b1,
    x86_exec fuel rs c0 b0 st = Some (x86_mk 24 (firstn 8 rs) g2 (firstn 1 (skipn 14 rs)) g4 c1 b1 (permute st)) /\
    length g2 = 5 /\ length g4 = 1 /\ length c1 = 10 /\ length b1 = 25.
Proof.
  intros Hf Hr Hc Hb Hst. unfold x86_exec.
  do 17 (destruct rs as [|? rs]; try discriminate). clear Hr.
  unfold x86_start. cbn [firstn app].
  match goal with |- context [c_run x86_prologue (c_state ?r [] ?o)] =>
    change (c_run x86_prologue (c_state r [] o)) with
      (Some (x86_mk 0 [c; c1; c2; c3; c4; c5; c6; c7] [c8; c9; c10; c11; c12] [c14] [c15] c0 b0 st)) end.
  cbv iota beta. apply (x86_loop_ok 23 0); auto.
Qed.

Lemma words_of_map l : words_of (map CW l) = Some l.
Proof. induction l as [|x l IH]; cbn; [reflexivity | now rewrite IH]. Qed.

Theorem x86_permute_ok fuel rs c0 b0 st : 24 <= fuel -> length rs = 16 -> length c0 = 10 -> length b0 = 25 -> block_ok 64 25 st ->
  x86_permute fuel rs c0 b0 st = Some (permute st).
Proof.
  intros Hf Hr Hc Hb Hst. unfold x86_permute.
  destruct (x86_exec_ok fuel rs c0 b0 st Hf Hr Hc Hb Hst) as (g2 & g4 & c1 & b1 & -> & _).
  unfold x86_mk, c_state. cbn [objects]. apply words_of_map.
Qed.

(** Registers afterwards: those outside the clobber list keep their contents, except [c]. *)
Theorem x86_registers fuel rs c0 b0 st : 24 <= fuel -> length rs = 16 -> length c0 = 10 -> length b0 = 25 -> block_ok 64 25 st ->
  exists m, x86_exec fuel rs c0 b0 st = Some m /\
    (forall r, In r [0; 1; 2; 3; 4; 5; 6; 7; 14] -> get concrete m r = nth_error rs r) /\
    (forall r, In r [16; 17; 18] -> get concrete m r = get concrete (x86_start rs c0 b0 st) r) /\
    get concrete (x86_start rs c0 b0 st) 19 = Some (CP 3 0) /\ get concrete m 19 = Some (CP 3 192).
Proof.
  intros Hf Hr Hc Hb Hst.
  destruct (x86_exec_ok fuel rs c0 b0 st Hf Hr Hc Hb Hst) as (g2 & g4 & c1 & b1 & -> & L2 & L4 & _).
  eexists; split; [reflexivity|].
  do 17 (destruct rs as [|? rs]; try discriminate). do 6 (destruct g2 as [|? g2]; try discriminate).
  do 2 (destruct g4 as [|? g4]; try discriminate).
  unfold get, x86_mk, x86_start, c_state. cbn [regs firstn skipn app].
  split; [|split; [|split]]; [| |reflexivity | reflexivity].
  - intros r H. cbn in H. repeat (destruct H as [<- | H]; [reflexivity|]). contradiction.
  - intros r H. cbn in H. repeat (destruct H as [<- | H]; [reflexivity|]). contradiction.
Qed.
