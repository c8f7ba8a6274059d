(** * The AVX2 assembly computes the portable permutation *)
From Coq Require Import NArith Arith List Bool Lia ZifyBool ZifyNat ZifyN ZArith.
From Verif Require Import SpecStream MPack LKeccakF LKeccakP MKeccak MAsm MKeccakAvx2 LAsm LAsmRound LAsmX86 LAsmArm.
Import ListNotations.
Ltac Zify.zify_post_hook ::= Z.div_mod_to_equations.

Definition opaque_mat (w : nat) (a : N) (n : nat) : list (list sval) :=
  map (fun k => opaques (a + N.of_nat w * N.of_nat k) w) (seq 0 n).
Lemma opaque_mat_rel w env pre ls post : Forall (fun l => length l = w) ls ->
  Forall2 (Forall2 (rel env (obj_env (pre ++ concat ls ++ post)))) (opaque_mat w (N.of_nat (length pre)) (length ls)) ls.
Proof.
  intros H. unfold opaque_mat. revert pre. induction H as [|l ls Hl H IH]; intros pre; cbn [length seq map concat]; constructor.
  - pose proof (opaques_rel env pre l (concat ls ++ post)) as G. rewrite Hl in G. rewrite <- app_assoc.
    replace (N.of_nat (length pre) + N.of_nat w * N.of_nat 0)%N with (N.of_nat (length pre)) by lia. exact G.
  - specialize (IH (pre ++ l)). rewrite <- !app_assoc in IH. rewrite <- app_assoc.
    rewrite app_length, Hl in IH. rewrite <- seq_shift, map_map.
    erewrite map_ext; [exact IH|]. intros k. cbn beta. f_equal. lia.
Qed.

(** General registers: rax; rbx, the counter; rcx-rsp; the three pointers r8-r10; r11-r15. *)
Definition avx2_regs {T} (rax : list T) (rbx : T) (mid ptrs high : list T) : list T := rax ++ [rbx] ++ mid ++ ptrs ++ high.
Definition lanes_of {T} (f : nat -> T) : list (list T) := map (map f) avx2_lanes.
Definition avx2_objs {T} (c : N -> T) : list (list T) := [map c avx2_rho_l; map c avx2_rho_r; map c avx2_round_constants_v].
Definition avx2_ptrs (i : nat) : list (nat * Z) := [(0, 0%Z); (1, 0%Z); (2, (32 * Z.of_nat i)%Z)].
Definition kc (n : N) : sval := SW (sconst n).

Definition avx2_sym (i : nat) : machine symbolic :=
  Build_machine symbolic
    (avx2_regs (opaques 0 1) (kc (24 - N.of_nat i)) (opaques 1 6) (sptrs (avx2_ptrs i)) (opaques 7 5))
    (lanes_of (fun k => SW (svar (N.of_nat k))) ++ opaque_mat 4 12 9) (avx2_objs kc).

Lemma avx2_checks_ok : forallb (fun i =>
    check (avx2_regs (map Val (opaques 0 1)) (Val (kc (24 - N.of_nat (S i)))) (map Val (opaques 1 6))
             (map Val (sptrs (avx2_ptrs (S i)))) (map Val (opaques 7 5)))
      (lanes_of (fun k => Exp (nth k (round_exprs (nth i round_constants 0%N)) (EC 0))) ++ repeat (repeat Any 4) 9)
      (map (map Val) (avx2_objs kc)) (run symbolic s_cnt avx2_body (avx2_sym i))) (seq 0 24) = true.
Proof. vm_compute. reflexivity. Qed.

Definition avx2_mk (i : nat) (rax mid high : list cval) (vs : list (list cval)) (st : list N) : c_machine :=
  c_state (avx2_regs rax (CW (24 - N.of_nat i)) mid (cptrs (avx2_ptrs i)) high)
    (lanes_of (fun k => CW (nth k st 0%N)) ++ vs) (avx2_objs CW).

Lemma consts_lt : Forall (Forall (fun w => w < 2 ^ 64)%N) [avx2_rho_l; avx2_rho_r; avx2_round_constants_v].
Proof. repeat constructor. Qed.

Lemma ptrs_rel env oe l : Forall2 (rel env oe) (sptrs l) (cptrs l).
Proof. induction l as [|[o z] l IH]; cbn; constructor; auto. cbn. auto. Qed.

Lemma lanes_F2 {X Y} (P : X -> Y -> Prop) f g : (forall k, k < 25 -> P (f k) (g k)) -> Forall2 (Forall2 P) (lanes_of f) (lanes_of g).
Proof. intros F. unfold lanes_of, avx2_lanes. cbn [map]. repeat constructor; apply F; lia. Qed.
Lemma lanes_inv {X Y} (P : X -> Y -> Prop) f g l : (forall k y, k < 25 -> P (f k) y -> y = g k) ->
  Forall2 (Forall2 P) (lanes_of f) l -> l = lanes_of g.
Proof.
  intros F. unfold lanes_of.
  assert (H : Forall (Forall (fun k => k < 25)) avx2_lanes) by (repeat constructor; lia).
  revert l. induction H as [|r rs Hr H IH]; cbn [map]; intros l G.
  - now apply F2_nil_inv in G.
  - apply F2_cons_inv in G as (y & l' & -> & Gy & Gl). f_equal; [|now apply IH].
    apply (map_F2_inv P f g); auto. intros i z Hi. apply F. rewrite Forall_forall in Hr. now apply Hr.
Qed.

Lemma avx2_iter i st rax mid high vs : i < 24 -> block_ok 64 25 st ->
  length rax = 1 -> length mid = 6 -> length high = 5 -> length vs = 9 -> Forall (fun l => length l = 4) vs ->
  exists vs', c_run avx2_body (avx2_mk i rax mid high vs st) =
      Some (avx2_mk (S i) rax mid high vs' (keccak_round st (nth i round_constants 0%N))) /\
    length vs' = 9 /\ Forall (fun l => length l = 4) vs'.
Proof.
  intros Hi [Hlen Hfit] H1 H2 H3 H4 H5. apply fits_lt in Hfit. pose proof (env_lt st Hfit) as Henv.
  assert (Hin : In i (seq 0 24)) by (apply in_seq; lia).
  pose proof (proj1 (forallb_forall _ (seq 0 24)) avx2_checks_ok i Hin) as C. cbv beta in C.
  pose proof (opaques_rel (word_env st) [] rax (mid ++ high ++ concat vs)) as G1.
  pose proof (opaques_rel (word_env st) rax mid (high ++ concat vs)) as G2.
  pose proof (opaques_rel (word_env st) (rax ++ mid) high (concat vs)) as G3.
  pose proof (opaque_mat_rel 4 (word_env st) (rax ++ mid ++ high) vs [] H5) as G4.
  rewrite ?app_nil_r, <- ?app_assoc in *. cbn [app] in G1.
  rewrite ?app_length in G2; rewrite ?app_length in G3; rewrite ?app_length in G4.
  rewrite H1 in G1; rewrite H1, H2 in G2; rewrite H1, H2, H3 in G3; rewrite H1, H2, H3, H4 in G4.
  remember (obj_env (rax ++ mid ++ high ++ concat vs)) as oe eqn:Eoe. clear Eoe.
  destruct (check_run st oe Hfit avx2_body (avx2_sym i) (avx2_mk i rax mid high vs st) _ _ _ C)
    as (rs' & vs' & os' & E & R1 & R2 & R3); cbn [avx2_sym avx2_mk c_state regs vregs objects].
  - unfold avx2_regs. repeat apply Forall2_app; auto.
    + constructor; [|constructor]. cbn [rel kc]. apply sconst_rep'; auto. clear - Hi. lia.
    + apply ptrs_rel.
  - apply Forall2_app; auto. apply lanes_F2. intros k Hk. cbn [rel].
    pose proof (svar_rep (word_env st) Henv (N.of_nat k)) as R. unfold word_env in R at 2. now rewrite Nat2N.id in R.
  - unfold avx2_objs, kc. pose proof consts_lt as K. inversion K as [|? ? K1 K']; subst. inversion K' as [|? ? K2 K'']; subst. inversion K'' as [|? ? K3 _]; subst.
    constructor; [|constructor; [|constructor; [|constructor]]]; apply consts_rel; auto.
  - unfold avx2_regs in R1.
    apply F2_app_inv in R1 as (r1 & t1 & -> & R1 & T). apply F2_app_inv in T as (rb & t2 & -> & Rb & T).
    apply F2_app_inv in T as (r2 & t3 & -> & Rm & T). apply F2_app_inv in T as (ps & r3 & -> & Rp & Rh).
    apply (holds_opaques _ _ _ _ _ _ R1) in G1. apply (holds_opaques _ _ _ _ _ _ Rm) in G2. apply (holds_opaques _ _ _ _ _ _ Rh) in G3.
    subst r1 r2 r3.
    apply F2_cons_inv in Rb as (x & t & -> & Rb & Rn). apply F2_nil_inv in Rn. subst t.
    apply val_const in Rb; [|clear - Hi; lia | exact Hfit]. subst x.
    apply holds_ptrs' in Rp. subst ps.
    apply F2_app_inv in R2 as (ls & vg & -> & Rl & Rv).
    apply (lanes_inv _ _ (fun k => CW (nth k (keccak_round st (nth i round_constants 0%N)) 0%N))) in Rl.
    2: { intros k y Hk Hy. cbn [holds] in Hy. subst y. f_equal. rewrite <- round_exprs_ev. rewrite <- (map_nth (ev st)). reflexivity. }
    subst ls.
    assert (Eo : os' = avx2_objs CW).
    { unfold avx2_objs in R3. cbn [map] in R3.
      pose proof consts_lt as K. inversion K as [|? ? K1 K']; subst. inversion K' as [|? ? K2 K'']; subst. inversion K'' as [|? ? K3 _]; subst.
      apply F2_cons_inv in R3 as (o1 & t1 & -> & Q1 & R3). apply F2_cons_inv in R3 as (o2 & t2 & -> & Q2 & R3).
      apply F2_cons_inv in R3 as (o3 & t3 & -> & Q3 & R3). apply F2_nil_inv in R3. subst t3.
      apply val_consts in Q1, Q2, Q3; auto. now subst. }
    subst os'. exists vg. split; [exact E|]. split.
    + clear - Rv. apply F2_length in Rv. rewrite repeat_length in Rv. auto.
    + clear - Rv. change (repeat (repeat Any 4) 9) with (repeat (repeat Any 4) 9) in Rv. revert Rv. generalize 9. intros n. revert vg.
      induction n as [|n IH]; intros vg H; cbn [repeat] in H.
      * apply F2_nil_inv in H. subst. constructor.
      * apply F2_cons_inv in H as (v & t & -> & Hv & Ht). constructor; [|now apply IH]. apply holds_len in Hv. exact Hv.
Qed.

Lemma avx2_get i rax mid high vs st : length rax = 1 -> get concrete (avx2_mk i rax mid high vs st) 1 = Some (CW (24 - N.of_nat i)).
Proof. intros H. do 2 (destruct rax as [|? rax]; try discriminate). reflexivity. Qed.

Lemma avx2_loop_ok n : forall i fuel st rax mid high vs, i + S n = 24 -> S n <= fuel -> block_ok 64 25 st ->
  length rax = 1 -> length mid = 6 -> length high = 5 -> length vs = 9 -> Forall (fun l => length l = 4) vs ->
  exists vs', c_loop fuel 1 avx2_body (avx2_mk i rax mid high vs st) =
      Some (avx2_mk 24 rax mid high vs' (fold_left keccak_round (skipn i round_constants) st)).
Proof.
  induction n as [|n IH]; intros i fuel st rax mid high vs Hi Hf Hst H1 H2 H3 H4 H5.
  all: destruct fuel as [|fuel]; [lia|].
  all: destruct (avx2_iter i st rax mid high vs) as (vs' & E & L1 & L2); auto; [lia|].
  all: change (c_loop (S fuel) 1 avx2_body (avx2_mk i rax mid high vs st)) with
    (bind (c_run avx2_body (avx2_mk i rax mid high vs st)) (fun m' => bind (get concrete m' 1)
       (fun c => bind (v_zero concrete c) (fun z : bool => if z then Some m' else c_loop fuel 1 avx2_body m')))).
  all: rewrite E; cbn [bind]; rewrite avx2_get by auto; cbn [bind v_zero concrete].
  all: rewrite (skipn_nth 0%N) by (cbn [length round_constants]; lia); cbn [fold_left].
  - assert (i = 23) by lia. subst i. cbn [N.eqb N.sub N.of_nat]. exists vs'. reflexivity.
  - replace (24 - N.of_nat (S i) =? 0)%N with false by lia.
    apply IH; auto; try lia. apply keccak_round_fits; [apply Hst|].
    apply (proj1 (Forall_forall (fits 64) round_constants) round_constants_fits). apply nth_In. cbn [length round_constants]. lia.
Qed.

Lemma avx2_prologue_ok rounds rs V O : rounds < 16 -> ~ In rounds [8; 9; 10] -> length rs = 16 ->
  exists rs', upd rs rounds (CW 24) = Some rs' /\
    c_run (avx2_prologue rounds) (c_state rs' V O) =
    Some (c_state (avx2_regs (firstn 1 rs') (CW 24) (firstn 6 (skipn 2 rs')) (cptrs (avx2_ptrs 0)) (skipn 11 rs')) V O).
Proof.
  intros Hr Hnot Hrs. do 17 (destruct rs as [|? rs]; try discriminate). clear Hrs.
  assert (H : In rounds (seq 0 16)) by (apply in_seq; lia). clear Hr. cbn [seq In] in H.
  repeat (destruct H as [<- | H]; [first [exfalso; apply Hnot; cbn; tauto | eexists; split; reflexivity] |]). contradiction.
Qed.

Lemma upd_length {T} (l : list T) i x l' : upd l i x = Some l' -> length l' = length l.
Proof.
  revert i l'. induction l as [|y l IH]; intros [|i] l'; cbn; try discriminate.
  - intros [= <-]. reflexivity.
  - destruct (upd l i x) as [r|] eqn:E; [|discriminate]. intros [= <-]. cbn. f_equal. eauto.
Qed.

Lemma avx2_exec_ok fuel rounds rs vs st : 24 <= fuel -> rounds < 16 -> ~ In rounds [8; 9; 10] ->
  length rs = 16 -> length vs = 16 -> Forall (fun l => length l = 4) vs -> block_ok 64 25 st ->
  exists rs' vs', upd rs rounds (CW 24) = Some rs' /\
    avx2_exec fuel rounds rs vs st = Some (avx2_mk 24 (firstn 1 rs') (firstn 6 (skipn 2 rs')) (skipn 11 rs') vs' (permute st)).
Proof.
  intros Hf Hr Hnot Hrs Hvs Hv Hst.
  assert (L : length (skipn 7 vs) = 9) by (rewrite skipn_length; lia).
  assert (F : Forall (fun l => length l = 4) (skipn 7 vs)).
  { rewrite Forall_forall in *. intros l Hl. apply Hv. rewrite <- (firstn_skipn 7 vs). apply in_or_app. now right. }
  destruct (avx2_prologue_ok rounds rs (lanes_of (fun i => CW (nth i st 0%N)) ++ skipn 7 vs) (avx2_objs CW) Hr Hnot Hrs) as (rs' & E & P).
  pose proof (upd_length _ _ _ _ E) as Lr. rewrite Hrs in Lr.
  destruct (avx2_loop_ok 23 0 fuel st (firstn 1 rs') (firstn 6 (skipn 2 rs')) (skipn 11 rs') (skipn 7 vs)) as (vs' & EL); auto.
  1-3: rewrite ?firstn_length, ?skipn_length; lia.
  exists rs', vs'. split; [exact E|]. unfold avx2_exec, avx2_start. rewrite E.
  fold (lanes_of (fun i => CW (nth i st 0%N))). fold (avx2_objs CW). rewrite P. exact EL.
Qed.

Lemma avx2_read_ok i rax mid high vs st : length st = 25 -> avx2_read (avx2_mk i rax mid high vs st) = Some st.
Proof.
  intros H. unfold avx2_read.
  rewrite <- (words_of_map st). f_equal. rewrite <- (map_nth_seq st 0%N), H, map_map.
  reflexivity.
Qed.

Theorem avx2_permute_ok fuel rounds rs vs st : 24 <= fuel -> rounds < 16 -> ~ In rounds [8; 9; 10] ->
  length rs = 16 -> length vs = 16 -> Forall (fun l => length l = 4) vs -> block_ok 64 25 st ->
  avx2_permute fuel rounds rs vs st = Some (permute st).
Proof.
  intros Hf Hr Hnot Hrs Hvs Hv Hst. unfold avx2_permute.
  destruct (avx2_exec_ok fuel rounds rs vs st Hf Hr Hnot Hrs Hvs Hv Hst) as (rs' & vs' & E & ->).
  apply avx2_read_ok. apply permute_ok, Hst.
Qed.

(** Registers afterwards: all but rbx, r8, r9 and r10 hold what they held. *)
Theorem avx2_registers fuel rounds rs vs st : 24 <= fuel -> rounds < 16 -> ~ In rounds [8; 9; 10] ->
  length rs = 16 -> length vs = 16 -> Forall (fun l => length l = 4) vs -> block_ok 64 25 st ->
  exists m0 m, avx2_start rounds rs vs st = Some m0 /\ avx2_exec fuel rounds rs vs st = Some m /\
    (forall r, ~ In r [1; 8; 9; 10] -> get concrete m r = get concrete m0 r) /\
    get concrete m 8 = Some (CP 0 0) /\ get concrete m 9 = Some (CP 1 0) /\ get concrete m 10 = Some (CP 2 768).
Proof.
  intros Hf Hr Hnot Hrs Hvs Hv Hst.
  destruct (avx2_exec_ok fuel rounds rs vs st Hf Hr Hnot Hrs Hvs Hv Hst) as (rs' & vs' & E & ->).
  unfold avx2_start. rewrite E. eexists _, _. split; [reflexivity|]. split; [reflexivity|].
  pose proof (upd_length _ _ _ _ E) as Lr. rewrite Hrs in Lr. clear E.
  do 17 (destruct rs' as [|? rs']; try discriminate). unfold get, avx2_mk, c_state. cbn [regs].
  split; [|repeat split; reflexivity].
  intros r H. do 16 (destruct r as [|r]; [first [exfalso; apply H; cbn; tauto | reflexivity]|]). now destruct r.
Qed.

(** ** The compiler may put [rounds] in r8, r9 or r10 *)
Lemma upd_nth {T} (l : list T) i x l' j : upd l i x = Some l' -> nth_error l' j = if Nat.eqb j i then Some x else nth_error l j.
Proof.
  revert i l' j. induction l as [|y l IH]; intros [|i] l' [|j]; cbn; try discriminate.
  - intros [= <-]. reflexivity.
  - intros [= <-]. reflexivity.
  - destruct (upd l i x) as [r|] eqn:E; [|discriminate]. intros [= <-]. reflexivity.
  - destruct (upd l i x) as [r|] eqn:E; [|discriminate]. intros [= <-]. cbn. now apply IH.
Qed.
Lemma get_set (m m' : c_machine) d x r : set concrete m d x = Some m' -> get concrete m' r = if Nat.eqb r d then Some x else get concrete m r.
Proof.
  unfold set, get. destruct (upd (regs concrete m) d x) as [rs|] eqn:E; [|discriminate]. intros [= <-]. cbn [regs]. eapply upd_nth; eauto.
Qed.
Lemma get_setv (m m' : c_machine) d x r : setv concrete m d x = Some m' -> get concrete m' r = get concrete m r.
Proof. unfold setv, get. destruct (upd (vregs concrete m) d x) as [rs|] eqn:E; [|discriminate]. intros [= <-]. reflexivity. Qed.
Lemma get_store (m m' : c_machine) b off x r : store concrete m b off x = Some m' -> get concrete m' r = get concrete m r.
Proof.
  unfold store, get. destruct (cell concrete m b off) as [[o i]|]; [|discriminate].
  destruct (nth_error _ o); [|discriminate]. destruct (upd l i x); [|discriminate].
  destruct (upd (objects concrete m) o l0); [|discriminate]. intros [= <-]. reflexivity.
Qed.

(** The general registers an instruction writes. *)
Definition writes (i : instr) : list nat :=
  match i with
  | x_mov_i _ d | x_mov _ d | x_mov_l _ _ d | x_xor _ d | x_xor_l _ _ d | x_and_l _ _ d | x_not d | x_rol _ d
  | x_lea _ _ d | x_lea_o _ d | x_dec d | a_ldr d _ _ | a_eor d _ _ | a_eor_ror d _ _ _ | a_bic d _ _ | a_ror d _ _
  | a_mov d _ | a_movz d _ | a_movk d _ _ | a_add d _ _ => [d]
  | a_ldp d1 d2 _ => [d1; d2]
  | _ => []
  end.
Lemma step_frame i (m m' : c_machine) r : ~ In r (writes i) -> step concrete c_count i m = Some m' -> get concrete m' r = get concrete m r.
Proof.
  destruct i; cbn [writes step bind In]; intros Hw H;
  repeat match type of H with
    | bind ?o _ = Some _ => destruct o eqn:?; cbn [bind] in H; [|discriminate H]
    | (if ?b then _ else _) = Some _ => destruct b; [|try discriminate H]
    | (let _ := _ in _) = Some _ => cbv zeta in H
    | match ?x with _ => _ end = Some _ => destruct x; try discriminate H
    end;
  repeat match goal with
    | H : set _ _ _ _ = Some ?m' |- context [get _ ?m' r] =>
        rewrite (get_set _ _ _ _ r H); clear H;
        match goal with |- context [Nat.eqb r ?d] => destruct (Nat.eqb_spec r d); [exfalso; subst; tauto|] end
    | H : setv _ _ _ _ = Some ?m' |- context [get _ ?m' r] => rewrite (get_setv _ _ _ _ r H); clear H
    | H : store _ _ _ _ _ = Some ?m' |- context [get _ ?m' r] => rewrite (get_store _ _ _ _ _ r H); clear H
    end; try reflexivity.
Qed.
Lemma run_frame p r : Forall (fun i => ~ In r (writes i)) p -> forall m m' : c_machine, c_run p m = Some m' -> get concrete m' r = get concrete m r.
Proof.
  induction 1 as [|i p H1 H2 IH]; intros m m'; cbn; [now intros [= <-]|].
  destruct (step concrete c_count i m) as [m1|] eqn:E; cbn; [|discriminate]. intros H.
  rewrite (IH m1 m' H). now apply (step_frame i).
Qed.
Lemma avx2_body_split : avx2_body = removelast avx2_body ++ [x_dec 1] /\ Forall (fun i => ~ In 1 (writes i)) (removelast avx2_body).
Proof.
  split; [reflexivity|].
  assert (H : forallb (fun i => forallb (fun d => negb (Nat.eqb d 1)) (writes i)) (removelast avx2_body) = true) by (vm_compute; reflexivity).
  apply Forall_forall. intros i Hi Hin. pose proof (proj1 (forallb_forall _ _) H i Hi) as G. cbv beta in G.
  pose proof (proj1 (forallb_forall _ _) G 1 Hin) as G'. discriminate G'.
Qed.
Lemma avx2_never fuel : forall (m : c_machine) o z, get concrete m 1 = Some (CP o z) -> c_loop fuel 1 avx2_body m = None.
Proof.
  induction fuel as [|fuel IH]; intros m o z H; [reflexivity|].
  change (c_loop (S fuel) 1 avx2_body m) with
    (bind (c_run avx2_body m) (fun m' => bind (get concrete m' 1)
       (fun c => bind (v_zero concrete c) (fun z : bool => if z then Some m' else c_loop fuel 1 avx2_body m')))).
  destruct avx2_body_split as [E F]. rewrite E at 1. rewrite run_app.
  destruct (c_run (removelast avx2_body) m) as [m1|] eqn:E1; [|reflexivity]. cbn [bind].
  pose proof (run_frame _ 1 F m m1 E1) as G. rewrite H in G.
  cbn [c_run run step bind]. unfold c_run. cbn [run step]. rewrite G. cbn [bind v_dec concrete].
  destruct (set concrete m1 1 (CP o (z - 1))) as [m2|] eqn:E2; [|reflexivity]. cbn [bind].
  pose proof (get_set _ _ _ _ 1 E2) as G2. cbn [Nat.eqb] in G2. rewrite G2. cbn [bind v_zero concrete].
  eapply IH. exact G2.
Qed.
Theorem avx2_clobbered fuel rounds rs vs st : In rounds [8; 9; 10] -> avx2_permute fuel rounds rs vs st = None.
Proof.
  intros H. unfold avx2_permute, avx2_exec. destruct (avx2_start rounds rs vs st) as [m0|]; [|reflexivity].
  destruct (c_run (avx2_prologue rounds) m0) as [m1|] eqn:E; [|reflexivity].
  assert (G : exists o z, get concrete m1 1 = Some (CP o z)).
  { unfold c_run, avx2_prologue in E. cbn [run step bind v_ptr concrete] in E.
    destruct (set concrete m0 8 (CP 0 0)) as [a|] eqn:E1; cbn [bind] in E; [|discriminate].
    destruct (set concrete a 9 (CP 1 0)) as [b|] eqn:E2; cbn [bind] in E; [|discriminate].
    destruct (set concrete b 10 (CP 2 0)) as [c|] eqn:E3; cbn [bind] in E; [|discriminate].
    destruct (get concrete c rounds) as [x|] eqn:E4; cbn [bind] in E; [|discriminate].
    destruct (set concrete c 1 x) as [d|] eqn:E5; cbn [bind] in E; [|discriminate].
    injection E as <-. rewrite (get_set _ _ _ _ 1 E5). cbn [Nat.eqb].
    rewrite (get_set _ _ _ _ rounds E3), (get_set _ _ _ _ rounds E2), (get_set _ _ _ _ rounds E1) in E4.
    cbn in H. destruct H as [<-|[<-|[<-|[]]]]; cbn [Nat.eqb] in E4; injection E4 as <-; eauto. }
  destruct G as (o & z & G). now rewrite (avx2_never fuel m1 o z G).
Qed.
