(** * The statements about the assembly in the form of PAsm.v *)
From Coq Require Import NArith Arith List Bool Lia ZifyBool ZifyNat ZifyN ZArith.
From Verif Require Import SpecStream SpecKeccak MPack LKeccakF LKeccakP LKeccakBij MKeccak MAsm MKeccakX86 MKeccakArm MKeccakAvx2 MKeccakAvx512
  LAsm LAsmRound LAsmX86 LAsmArm LAsmAvx2 LAsmAvx512.
Import ListNotations.
Ltac Zify.zify_post_hook ::= Z.div_mod_to_equations.

(** ** x86-64 *)
Lemma x86_kept fuel rs c0 b0 st : 24 <= fuel -> length rs = 16 -> length c0 = 10 -> length b0 = 25 -> block_ok 64 25 st ->
  exists m, x86_exec fuel rs c0 b0 st = Some m /\
    forall r, r < 20 -> ~ In r [8; 9; 10; 11; 12; 13; 15] -> r <> 19 -> get concrete m r = get concrete (x86_start rs c0 b0 st) r.
Proof.
  intros Hf Hr Hc Hb Hst. destruct (x86_registers fuel rs c0 b0 st Hf Hr Hc Hb Hst) as (m & E & H1 & H2 & _).
  exists m. split; [exact E|]. intros r Hlt Hn Hne.
  assert (K : In r [0; 1; 2; 3; 4; 5; 6; 7; 14] \/ In r [16; 17; 18]).
  { clear - Hlt Hn Hne. cbn [In] in *. lia. }
  destruct K as [K | K]; [|now apply H2]. rewrite (H1 r K). unfold get, x86_start, c_state. cbn [regs].
  rewrite firstn_all2 by lia. rewrite nth_error_app1; [reflexivity|]. cbn in K. lia.
Qed.

(** Objects keep their sizes. *)
Definition sizes (m : c_machine) : list nat := map (@length cval) (objects concrete m).
Lemma sizes_set (m m' : c_machine) d x : set concrete m d x = Some m' -> sizes m' = sizes m.
Proof. unfold set, sizes. destruct (upd (regs concrete m) d x); [|discriminate]. intros [= <-]. reflexivity. Qed.
Lemma sizes_setv (m m' : c_machine) d x : setv concrete m d x = Some m' -> sizes m' = sizes m.
Proof. unfold setv, sizes. destruct (upd (vregs concrete m) d x); [|discriminate]. intros [= <-]. reflexivity. Qed.
Lemma upd_sizes {T} (ls : list (list T)) o l l' ls' : nth_error ls o = Some l -> length l' = length l -> upd ls o l' = Some ls' ->
  map (@length T) ls' = map (@length T) ls.
Proof.
  revert o ls'. induction ls as [|a ls IH]; intros [|o] ls'; cbn; try discriminate.
  - intros [= ->] L [= <-]. cbn. now rewrite L.
  - intros E L. destruct (upd ls o l') as [r|] eqn:U; [|discriminate]. intros [= <-]. cbn. f_equal. eauto.
Qed.
Lemma sizes_store (m m' : c_machine) b off x : store concrete m b off x = Some m' -> sizes m' = sizes m.
Proof.
  unfold store, sizes. destruct (cell concrete m b off) as [[o i]|]; [|discriminate].
  destruct (nth_error (objects concrete m) o) as [l|] eqn:E; [|discriminate]. destruct (upd l i x) as [l'|] eqn:U; [|discriminate].
  destruct (upd (objects concrete m) o l') as [os|] eqn:U2; [|discriminate]. intros [= <-]. cbn [objects].
  eapply upd_sizes; [exact E | | exact U2]. eapply upd_length; eauto.
Qed.
Lemma step_sizes i (m m' : c_machine) : step concrete c_count i m = Some m' -> sizes m' = sizes m.
Proof.
  destruct i; cbn [step bind]; intros H;
  repeat match type of H with
    | bind ?o _ = Some _ => destruct o eqn:?; cbn [bind] in H; [|discriminate H]
    | (if ?b then _ else _) = Some _ => destruct b; [|try discriminate H]
    | (let _ := _ in _) = Some _ => cbv zeta in H
    | match ?x with _ => _ end = Some _ => destruct x; try discriminate H
    end;
  repeat match goal with
    | H : set _ _ _ _ = Some ?m' |- sizes ?m' = _ => rewrite (sizes_set _ _ _ _ H); clear H
    | H : setv _ _ _ _ = Some ?m' |- sizes ?m' = _ => rewrite (sizes_setv _ _ _ _ H); clear H
    | H : store _ _ _ _ _ = Some ?m' |- sizes ?m' = _ => rewrite (sizes_store _ _ _ _ _ H); clear H
    end; try reflexivity.
Qed.
Lemma run_sizes p : forall m m' : c_machine, c_run p m = Some m' -> sizes m' = sizes m.
Proof.
  induction p as [|i p IH]; intros m m'; cbn; [now intros [= <-]|].
  destruct (step concrete c_count i m) as [m1|] eqn:E; cbn; [|discriminate]. intros H.
  rewrite (IH m1 m' H). now apply (step_sizes i).
Qed.

(** Where the body reads the round constant. *)
Fixpoint before_constant (p : list instr) : list instr :=
  match p with
  | [] => []
  | i :: p' => match i with x_xor_l 0 19 _ => [] | _ => i :: before_constant p' end
  end.
Definition constant_at : nat := length (before_constant x86_body).
Lemma x86_body_split : exists d post, x86_body = before_constant x86_body ++ [x_xor_l 0 19 d] ++ post /\
  Forall (fun i => ~ In 19 (writes i)) (before_constant x86_body).
Proof.
  eexists _, _. split; [vm_compute; reflexivity|].
  assert (H : forallb (fun i => forallb (fun d => negb (Nat.eqb d 19)) (writes i)) (before_constant x86_body) = true) by (vm_compute; reflexivity).
  apply Forall_forall. intros i Hi Hin. pose proof (proj1 (forallb_forall _ _) H i Hi) as G. cbv beta in G.
  pose proof (proj1 (forallb_forall _ _) G 19 Hin) as G'. discriminate G'.
Qed.

Lemma x86_out_of_bounds fuel (m : c_machine) : get concrete m 19 = Some (CP 3 192) -> nth_error (sizes m) 3 = Some 24 ->
  c_loop fuel 13 x86_body m = None.
Proof.
  intros G HS. destruct fuel as [|fuel]; [reflexivity|].
  change (c_loop (Datatypes.S fuel) 13 x86_body m) with
    (bind (c_run x86_body m) (fun m' => bind (get concrete m' 13)
       (fun c => bind (v_zero concrete c) (fun z : bool => if z then Some m' else c_loop fuel 13 x86_body m')))).
  destruct x86_body_split as (d & post & E & F). rewrite E at 1. rewrite !run_app.
  destruct (c_run (before_constant x86_body) m) as [m1|] eqn:E1; [|reflexivity]. cbn [bind].
  pose proof (run_frame _ 19 F m m1 E1) as G1. rewrite G in G1.
  pose proof (run_sizes _ m m1 E1) as S1. rewrite <- S1 in HS. clear S1.
  assert (L : load concrete m1 19 0 = None).
  { unfold load, cell. rewrite G1. cbn [v_to_ptr concrete]. cbn -[nth_error Z.to_nat Z.div].
    unfold sizes in HS. rewrite nth_error_map in HS.
    change (objects concrete m1) with (objects concrete m1 : list (list cval)) in *.
    match goal with |- match ?o with _ => _ end = None =>
      assert (K : option_map (@length cval) o = Some 24) by exact HS; destruct o as [l|]; [|discriminate K] end.
    cbn [option_map] in K. injection K as K.
    change (Z.to_nat (192 / 8)) with 24. apply nth_error_None. lia. }
  unfold c_run. cbn [run step app]. rewrite L. reflexivity.
Qed.

Lemma x86_again_fails fuel fuel' rs c0 b0 st : 24 <= fuel -> length rs = 16 -> length c0 = 10 -> length b0 = 25 -> block_ok 64 25 st ->
  exists m, x86_exec fuel rs c0 b0 st = Some m /\ get concrete (x86_start rs c0 b0 st) 19 = Some (CP 3 0) /\
    get concrete m 19 = Some (CP 3 192) /\ x86_again fuel' m = None.
Proof.
  intros Hf Hr Hc Hb Hst. destruct (x86_registers fuel rs c0 b0 st Hf Hr Hc Hb Hst) as (m & E & _ & _ & H1 & H2).
  exists m. repeat split; auto. unfold x86_again. destruct (c_run x86_prologue m) as [m'|] eqn:P; [|reflexivity].
  apply x86_out_of_bounds.
  - rewrite (run_frame x86_prologue 19) with (m := m); auto. repeat constructor. cbn. lia.
  - rewrite (run_sizes _ _ _ P).
    destruct (x86_exec_ok fuel rs c0 b0 st Hf Hr Hc Hb Hst) as (g2 & g4 & c1 & b1 & E' & _).
    rewrite E in E'. injection E' as ->. reflexivity.
Qed.

(** ** ARMv8 *)
Lemma arm_kept rs stack st : length rs = 31 -> length stack = 4 -> block_ok 64 25 st ->
  exists m, arm_exec rs stack st = Some m /\
    forall r, r < 33 -> ~ In r [25; 26; 27; 28; 0; 2; 3; 4; 5; 6; 7; 8; 9; 10; 11; 12; 13; 14; 15; 16; 17; 30; 19; 20; 21; 22; 23; 24] ->
    get concrete m r = get concrete (arm_start rs stack st) r.
Proof.
  intros Hr Hs Hst. destruct (arm_registers rs stack st Hr Hs Hst) as (m & E & H). exists m. split; [exact E|].
  intros r Hlt Hn. apply H. clear - Hlt Hn. cbn [In] in *. lia.
Qed.

(** ** AVX2 *)
Lemma avx2_not_kept fuel rounds rs vs st : 24 <= fuel -> rounds < 16 -> ~ In rounds [8; 9; 10] ->
  length rs = 16 -> length vs = 16 -> Forall (fun l => length l = 4) vs -> block_ok 64 25 st ->
  exists m, avx2_exec fuel rounds rs vs st = Some m /\
    map (get concrete m) [8; 9; 10] = [Some (CP 0 0); Some (CP 1 0); Some (CP 2 768)].
Proof.
  intros Hf Hr Hnot Hrs Hvs Hv Hst. destruct (avx2_registers fuel rounds rs vs st Hf Hr Hnot Hrs Hvs Hv Hst) as (m0 & m & _ & E & _ & H8 & H9 & H10).
  exists m. split; [exact E|]. cbn [map]. now rewrite H8, H9, H10.
Qed.

(** ** AVX-512 *)
Definition zero_state : list N := repeat 0%N 25.
Definition other_state : list N := [0; 0; 1]%N ++ repeat 0%N 22.
Lemma avx512_wrong fuel rs vs : length vs = 8 -> Forall (fun l => length l = 8) vs ->
  exists st, block_ok 64 25 st /\ avx512_permute fuel rs (map (map CW) vs) st <> Some (permute st).
Proof.
  intros Hv Fv.
  assert (B0 : block_ok 64 25 zero_state) by (split; [reflexivity | repeat constructor]).
  assert (B1 : block_ok 64 25 other_state) by (split; [reflexivity | repeat constructor]).
  assert (E : avx512_permute fuel rs (map (map CW) vs) zero_state = avx512_permute fuel rs (map (map CW) vs) other_state).
  { apply avx512_independent; auto. intros i Hi. do 25 (destruct i as [|i]; [cbn in *; first [reflexivity | lia]|]). now destruct i. }
  assert (D : {avx512_permute fuel rs (map (map CW) vs) zero_state = Some (permute zero_state)} + {avx512_permute fuel rs (map (map CW) vs) zero_state <> Some (permute zero_state)}).
  { decide equality. apply (list_eq_dec N.eq_dec). }
  destruct D as [D | D]; [|exists zero_state; auto].
  exists other_state. split; [exact B1|]. rewrite <- E, D. intros H.
  apply (f_equal (fun o => match o with Some x => x | None => [] end)) in H. cbv beta iota in H.
  pose proof (permute_injective zero_state other_state B0 B1 H) as K. discriminate K.
Qed.

Lemma asm_example : block_ok 64 25 (map N.of_nat (seq 1 25)) /\ length (repeat (CP 7 0) 16) = 16 /\
  x86_permute 24 (repeat (CW 9) 16) (repeat (CW 3) 10) (repeat (CW 4) 25) (map N.of_nat (seq 1 25)) = Some (permute (map N.of_nat (seq 1 25))) /\
  avx2_permute 24 8 (repeat (CW 9) 16) (repeat (repeat (CW 3) 4) 16) (map N.of_nat (seq 1 25)) = None.
Proof.
  split; [split; [reflexivity | repeat constructor] |]. split; [reflexivity|]. split.
  - apply x86_permute_ok; try reflexivity; try lia. split; [reflexivity | repeat constructor].
  - apply avx2_clobbered. cbn. auto.
Qed.

Lemma asm_example_2 : let st := map N.of_nat (seq 1 25) in
  arm_permute (repeat (CW 9) 31) (repeat (CW 3) 4) st = Some (permute st) /\ ~ In 6 [8; 9; 10] /\
  avx2_permute 24 6 (repeat (CW 9) 16) (repeat (repeat (CW 3) 4) 16) st = Some (permute st) /\ permute st <> st.
Proof.
  cbv zeta. assert (B : block_ok 64 25 (map N.of_nat (seq 1 25))) by (split; [reflexivity | repeat constructor]).
  assert (I : ~ In 6 [8; 9; 10]) by (cbn; lia).
  split; [apply arm_permute_ok; [reflexivity | reflexivity | exact B]|]. split; [exact I|]. split.
  - apply avx2_permute_ok; try reflexivity; try lia; [exact I | | exact B]. cbn. repeat constructor.
  - vm_compute. discriminate.
Qed.
