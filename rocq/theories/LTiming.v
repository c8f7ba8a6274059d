(** The observable events of the Keccak assembly do not depend on the data: proofs. *)
From Coq Require Import NArith ZArith Arith List Bool Lia.
From Verif Require Import MKeccak MAsm MKeccakX86 MKeccakArm MKeccakAvx2 MKeccakAvx512 MTiming LAsm.
Import ListNotations.

(** ** Traced runs over related values *)
Section Sim.
Context (A B : values) (cA : A -> option N) (cB : B -> option N) (R : A -> B -> Prop).
Context (S : simulates A B cA cB R).
Notation simm := (simm A B R).
Definition simt (x : list event * machine A) (y : list event * machine B) : Prop := fst x = fst y /\ simm (snd x) (snd y).

Lemma sim_observe i m n : simm m n -> opt_sim eq (observe A i m) (observe B i n).
Proof.
  intros H. unfold observe. destruct (operand i) as [[[[w b] off] k]|]; [|cbn; eauto].
  pose proof (sim_get A B R m n b H) as G. destruct (get A m b) as [p|]; [|exact I]. destruct G as (q & -> & Hq).
  pose proof (s_to_ptr _ _ _ _ _ S _ _ Hq) as G. destruct (v_to_ptr A p) as [[o z]|]; [|exact I].
  destruct G as (? & -> & <-). cbn. eauto.
Qed.
Lemma sim_traced_run p : forall m n, simm m n -> opt_sim simt (traced_run A cA p m) (traced_run B cB p n).
Proof.
  induction p as [|i p IH]; intros m n H; cbn [traced_run].
  - eexists. split; [reflexivity|]. now split.
  - pose proof (sim_observe i m n H) as O. destruct (observe A i m) as [e|]; [|exact I]. destruct O as (e' & -> & <-).
    pose proof (sim_step A B cA cB R S i m n H) as G. destruct (step A cA i m) as [m'|]; [|exact I]. destruct G as (n' & -> & H').
    specialize (IH m' n' H'). destruct (traced_run A cA p m') as [[t m'']|]; [|exact I].
    destruct IH as ((t' & n'') & -> & E & H''). cbn in E. subst t'. eexists. split; [reflexivity|]. now split.
Qed.
Lemma sim_traced_loop fuel c p : forall m n, simm m n -> opt_sim simt (traced_loop A cA fuel c p m) (traced_loop B cB fuel c p n).
Proof.
  induction fuel as [|fuel IH]; intros m n H; cbn [traced_loop]; [exact I|].
  pose proof (sim_traced_run p m n H) as G. destruct (traced_run A cA p m) as [[t m']|]; [|exact I].
  destruct G as ((t' & n') & -> & E & H'). cbn in E. subst t'. cbn [snd] in H'.
  pose proof (sim_get A B R m' n' c H') as G. destruct (get A m' c) as [x|]; [|exact I]. destruct G as (y & -> & Hx).
  pose proof (s_zero _ _ _ _ _ S _ _ Hx) as G. destruct (v_zero A x) as [z|]; [|exact I]. destruct G as (? & -> & <-).
  destruct z; [eexists; split; [reflexivity|]; now split|].
  specialize (IH m' n' H'). destruct (traced_loop A cA fuel c p m') as [[t' m'']|]; [|exact I].
  destruct IH as ((t'' & n'') & -> & E & H''). cbn in E. subst t''. eexists. split; [reflexivity|]. now split.
Qed.
Lemma sim_traced_both p fuel c q m n : simm m n ->
  opt_sim simt (traced_both A cA p fuel c q m) (traced_both B cB p fuel c q n).
Proof.
  intros H. unfold traced_both. pose proof (sim_traced_run p m n H) as G. destruct (traced_run A cA p m) as [[t m']|]; [|exact I].
  destruct G as ((t' & n') & -> & E & H'). cbn in E. subst t'. cbn [snd] in H'.
  pose proof (sim_traced_loop fuel c q m' n' H') as G. destruct (traced_loop A cA fuel c q m') as [[t' m'']|]; [|exact I].
  destruct G as ((t'' & n'') & -> & E & H''). cbn in E. subst t''. eexists. split; [reflexivity|]. now split.
Qed.
End Sim.

(** ** The traced run is the run *)
Section Erase.
Context (A : values) (cnt : A -> option N).
Lemma erase_run p : forall m t m', traced_run A cnt p m = Some (t, m') -> run A cnt p m = Some m'.
Proof.
  induction p as [|i p IH]; intros m t m' H; cbn [traced_run run] in *; [now injection H as _ <-|].
  destruct (observe A i m); [|discriminate]. destruct (step A cnt i m) as [m1|]; [|discriminate]. cbn [bind].
  destruct (traced_run A cnt p m1) as [[t1 m2]|] eqn:E; [|discriminate]. injection H as _ <-. exact (IH _ _ _ E).
Qed.
Lemma erase_loop c p fuel : forall m t m', traced_loop A cnt fuel c p m = Some (t, m') -> loop A cnt fuel c p m = Some m'.
Proof.
  induction fuel as [|fuel IH]; intros m t m' H; cbn [traced_loop loop] in *; [discriminate|].
  destruct (traced_run A cnt p m) as [[t1 m1]|] eqn:E; [|discriminate]. apply erase_run in E. rewrite E. cbn [bind].
  destruct (get A m1 c) as [x|]; [|discriminate]. cbn [bind]. destruct (v_zero A x) as [[]|]; [| |discriminate]; cbn [bind].
  - now injection H as _ <-.
  - destruct (traced_loop A cnt fuel c p m1) as [[t2 m2]|] eqn:E2; [|discriminate]. injection H as _ <-. exact (IH _ _ _ E2).
Qed.
Lemma loop_more c p fuel : forall fuel' m r, fuel <= fuel' -> traced_loop A cnt fuel c p m = Some r -> traced_loop A cnt fuel' c p m = Some r.
Proof.
  induction fuel as [|fuel IH]; intros fuel' m r L H; cbn [traced_loop] in *; [discriminate|].
  destruct fuel' as [|fuel']; [lia|]. cbn [traced_loop].
  destruct (traced_run A cnt p m) as [[t1 m1]|]; [|discriminate]. destruct (get A m1 c) as [x|]; [|discriminate].
  destruct (v_zero A x) as [[]|]; [exact H| |discriminate].
  destruct (traced_loop A cnt fuel c p m1) as [r2|] eqn:E2; [|discriminate]. rewrite (IH fuel' m1 r2) by (lia || assumption). exact H.
Qed.
End Erase.

(** ** Public and secret values *)
Inductive tval := Pub (c : cval) | Sec | Junk.
Definition tpub (o : option cval) : option tval := match o with Some c => Some (Pub c) | None => None end.
Definition t1 (f : cval -> option cval) (x : tval) : option tval :=
  match x with Pub c => tpub (f c) | Sec => Some Sec | Junk => None end.
Definition t2 (f : cval -> cval -> option cval) (x y : tval) : option tval :=
  match x, y with
  | Pub a, Pub b => tpub (f a b)
  | Pub (CW _), Sec | Sec, Pub (CW _) | Sec, Sec => Some Sec
  | _, _ => None
  end.
Definition taint : values := {|
  V := tval;
  v_word := fun n => Pub (v_word concrete n);
  v_ptr := fun o z => Pub (CP o z);
  v_to_ptr := fun x => match x with Pub c => v_to_ptr concrete c | _ => None end;
  v_zero := fun x => match x with Pub c => v_zero concrete c | _ => None end;
  v_dec := fun x => match x with Pub c => tpub (v_dec concrete c) | Sec => Some Sec | Junk => None end;
  v_movk := fun i s => t1 (v_movk concrete i s);
  v_not := t1 (v_not concrete);
  v_rol := fun k => t1 (v_rol concrete k);
  v_ror := fun k => t1 (v_ror concrete k);
  v_shl := fun k => t1 (v_shl concrete k);
  v_shr := fun k => t1 (v_shr concrete k);
  v_xor := t2 (v_xor concrete);
  v_and := t2 (v_and concrete);
  v_or := t2 (v_or concrete);
  v_add := t2 (v_add concrete)
|}.
Definition t_count (x : tval) : option N := match x with Pub c => c_count c | _ => None end.
Definition trel (x : tval) (c : cval) : Prop :=
  match x with Pub d => c = d | Sec => exists w, c = CW w | Junk => True end.

Lemma t1_sim f : sim1 taint concrete trel (t1 (word1 f)) (word1 f).
Proof.
  intros [[w|o z]| |] b H; cbn in *.
  - subst b. cbn. eauto.
  - exact I.
  - destruct H as (w & ->). cbn. eexists. split; [reflexivity|]. eexists. reflexivity.
  - exact I.
Qed.
Lemma t2_sim f : sim2 taint concrete trel (t2 (word2 f)) (word2 f).
Proof.
  intros [[w|o z]| |] b [[w'|o' z']| |] b' H H'; cbn in *; subst; try exact I;
    repeat match goal with H : exists _, _ |- _ => destruct H as (? & ->) end; cbn; eexists; (split; [reflexivity|]); cbn; eauto.
Qed.
Lemma taint_sim : simulates taint concrete t_count c_count trel.
Proof.
  constructor; try (intros; apply t1_sim); try (intros; apply t2_sim).
  - intros n. reflexivity.
  - intros o z. reflexivity.
  - intros [c| |] b H; cbn in H; [subst b; destruct c; cbn; eauto|exact I|exact I].
  - intros [c| |] b H; cbn in H; [subst b; destruct c; cbn; eauto|exact I|exact I].
  - intros [c| |] b H; cbn in H; [subst b; destruct c; cbn; eauto|exact I|exact I].
  - intros [[w|o z]| |] b H; cbn in H; [subst b; cbn; eauto|subst b; cbn; eauto|destruct H as (w & ->); cbn; eauto|exact I].
Qed.

Lemma F2_sec {X} (f : X -> N) l : Forall2 trel (repeat Sec (length l)) (map (fun x => CW (f x)) l).
Proof. induction l as [|w l IH]; cbn; constructor; cbn; eauto. Qed.
Lemma F2_junk l n : length l = n -> Forall2 trel (repeat Junk n) l.
Proof. intros <-. induction l as [|w l IH]; cbn; constructor; cbn; auto. Qed.
Lemma F2_pub l : Forall2 trel (map Pub l) l.
Proof. induction l as [|w l IH]; cbn; constructor; cbn; auto. Qed.
Lemma F2_words l n : length l = n -> Forall2 trel (repeat Sec n) (map CW l).
Proof. intros <-. apply (F2_sec (fun w => w)). Qed.

Lemma F2_vectors k vs : Forall (fun l => length l = k) vs -> forall n, length vs = n ->
  Forall2 (Forall2 trel) (repeat (repeat Junk k) n) vs.
Proof.
  intros F n <-. induction F as [|x l Hx Hl IH]; cbn [length repeat]; [exact (Forall2_nil _)|apply Forall2_cons; [now apply F2_junk|exact IH]].
Qed.

Lemma is_some {X} (o : option X) : match o with Some _ => true | None => false end = true -> exists x, o = Some x.
Proof. destruct o; [eauto|discriminate]. Qed.

(** ** The four permutations *)
Definition x86_t : machine taint :=
  Build_machine taint (repeat Junk 16 ++ map Pub [CP 0 0; CP 1 0; CP 2 0; CP 3 0]) []
    [repeat Sec 25; repeat Junk 10; repeat Junk 25; map Pub (map CW x86_round_constants)].
Definition arm_t : machine taint :=
  Build_machine taint (repeat Junk 31 ++ map Pub [CP 1 32; CP 0 0]) [] [repeat Sec 25; repeat Junk 4].
Lemma x86_ok : exists r, traced_both taint t_count x86_prologue 24 13 x86_body x86_t = Some r.
Proof. apply is_some. vm_compute. reflexivity. Qed.
Lemma arm_ok : exists r, traced_run taint t_count arm_program arm_t = Some r.
Proof. apply is_some. vm_compute. reflexivity. Qed.

Lemma both_concrete p fuel c q (mt : machine taint) t mt' :
  traced_both taint t_count p fuel c q mt = Some (t, mt') ->
  forall fuel' m, fuel <= fuel' -> simm taint concrete trel mt m ->
  exists m', traced_both concrete c_count p fuel' c q m = Some (t, m') /\
    match c_run p m with Some m1 => c_loop fuel' c q m1 | None => None end = Some m'.
Proof.
  intros E fuel' m L H. pose proof (sim_traced_both _ _ _ _ _ taint_sim p fuel c q mt m H) as G. rewrite E in G.
  destruct G as ((t' & m') & G & Et & _). cbn in Et. subst t'. exists m'. unfold traced_both in *.
  destruct (traced_run concrete c_count p m) as [[ta m1]|] eqn:E1; [|discriminate].
  destruct (traced_loop concrete c_count fuel c q m1) as [[tb m2]|] eqn:E2; [|discriminate].
  pose proof (loop_more _ _ c q fuel fuel' m1 (tb, m2) L E2) as E3. rewrite E3. injection G as -> ->. split; [reflexivity|].
  unfold c_run. rewrite (erase_run _ _ _ _ _ _ E1). exact (erase_loop _ _ _ _ _ _ _ _ E3).
Qed.

Lemma x86_rel rs c0 b0 st : length rs = 16 -> length c0 = 10 -> length b0 = 25 -> length st = 25 ->
  simm taint concrete trel x86_t (x86_start rs c0 b0 st).
Proof.
  intros H1 H2 H3 H4. unfold x86_start, c_state, x86_t. split; [|split]; cbn [regs vregs objects].
  - apply Forall2_app; [apply F2_junk; rewrite firstn_length; lia|apply F2_pub].
  - constructor.
  - constructor; [now apply F2_words|]. constructor; [now apply F2_junk|]. constructor; [now apply F2_junk|].
    constructor; [apply F2_pub|constructor].
Qed.
Lemma x86_constant_time : exists t, forall fuel rs c0 b0 st,
  24 <= fuel -> length rs = 16 -> length c0 = 10 -> length b0 = 25 -> length st = 25 ->
  exists m, x86_traced fuel rs c0 b0 st = Some (t, m) /\ x86_exec fuel rs c0 b0 st = Some m.
Proof.
  destruct x86_ok as [[t mt] E].
  exists t. intros fuel rs c0 b0 st Hf H1 H2 H3 H4. unfold x86_traced, x86_exec.
  exact (both_concrete _ _ _ _ _ _ _ E _ _ Hf (x86_rel rs c0 b0 st H1 H2 H3 H4)).
Qed.
Lemma arm_constant_time : exists t, forall rs stack st,
  length rs = 31 -> length stack = 4 -> length st = 25 ->
  exists m, arm_traced rs stack st = Some (t, m) /\ arm_exec rs stack st = Some m.
Proof.
  destruct arm_ok as [[t mt] E].
  exists t. intros rs stack st H1 H2 H3.
  assert (H : simm taint concrete trel arm_t (arm_start rs stack st)).
  { unfold arm_start, c_state, arm_t. split; [|split]; cbn [regs vregs objects].
    - apply Forall2_app; [apply F2_junk; rewrite firstn_length; lia|apply F2_pub].
    - constructor.
    - constructor; [now apply F2_words|]. constructor; [now apply F2_junk|constructor]. }
  pose proof (sim_traced_run _ _ _ _ _ taint_sim arm_program _ _ H) as G. rewrite E in G.
  destruct G as ((t' & m') & G & Et & _). cbn in Et. subst t'. exists m'. unfold arm_traced, arm_exec. split; [exact G|].
  exact (erase_run _ _ _ _ _ _ G).
Qed.

Definition avx2_t (rounds : nat) : machine taint :=
  Build_machine taint
    (firstn rounds (repeat Junk 16) ++ Pub (CW 24) :: skipn (Datatypes.S rounds) (repeat Junk 16)) (map (map (fun _ => Sec)) avx2_lanes ++ repeat (repeat Junk 4) 9)
    [map Pub (map CW avx2_rho_l); map Pub (map CW avx2_rho_r); map Pub (map CW avx2_round_constants_v)].
Lemma avx2_ok rounds : rounds < 16 -> ~ In rounds [8; 9; 10] ->
  exists r, traced_both taint t_count (avx2_prologue rounds) 24 1 avx2_body (avx2_t rounds) = Some r.
Proof.
  intros Hr Hn. apply is_some.
  assert (I : In rounds [0; 1; 2; 3; 4; 5; 6; 7; 11; 12; 13; 14; 15]) by (cbn in *; lia).
  revert rounds I Hr Hn. assert (F : forallb (fun r => match traced_both taint t_count (avx2_prologue r) 24 1 avx2_body (avx2_t r) with
    Some _ => true | None => false end) [0; 1; 2; 3; 4; 5; 6; 7; 11; 12; 13; 14; 15] = true) by (vm_compute; reflexivity).
  intros rounds I _ _. exact (proj1 (forallb_forall _ _) F rounds I).
Qed.
Lemma upd_split {T} (x : T) : forall l i, i < length l -> upd l i x = Some (firstn i l ++ x :: skipn (Datatypes.S i) l).
Proof.
  induction l as [|y l IH]; intros i H; cbn in H; [lia|]. destruct i as [|i]; [reflexivity|]. cbn [upd]. rewrite IH by lia. reflexivity.
Qed.
Lemma skipn_firstn_junk n i : i < n -> firstn i (repeat Junk n) = repeat Junk i /\ skipn (Datatypes.S i) (repeat Junk n) = repeat Junk (n - Datatypes.S i).
Proof.
  revert n. induction i as [|i IH]; intros [|n] H; try lia.
  - cbn. now rewrite Nat.sub_0_r.
  - destruct (IH n) as [E1 E2]; [lia|]. split; [cbn [repeat firstn]; now rewrite E1|exact E2].
Qed.
Lemma avx2_constant_time rounds : rounds < 16 -> ~ In rounds [8; 9; 10] ->
  exists t, forall fuel rs vs st,
  24 <= fuel -> length rs = 16 -> length vs = 16 -> Forall (fun l => length l = 4) vs ->
  exists m, avx2_traced fuel rounds rs vs st = Some (t, m) /\ avx2_exec fuel rounds rs vs st = Some m.
Proof.
  intros Hr Hn. destruct (avx2_ok rounds Hr Hn) as [[t mt] E]. exists t. intros fuel rs vs st Hf H1 H2 H3. unfold avx2_traced, avx2_exec, avx2_start.
  rewrite upd_split by lia. refine (both_concrete _ _ _ _ _ _ _ E _ _ Hf _).
  unfold c_state, avx2_t. destruct (skipn_firstn_junk 16 rounds Hr) as [E1 E2]. split; [|split]; cbn [regs vregs objects].
  - rewrite E1, E2. apply Forall2_app; [|constructor; [reflexivity|]]; apply F2_junk; rewrite ?firstn_length, ?skipn_length; lia.
  - apply Forall2_app.
    + clear. induction avx2_lanes as [|l ls IH]; cbn [map]; constructor; [|exact IH].
      induction l as [|i l IHl]; cbn [map]; constructor; [cbn; eauto|exact IHl].
    + assert (L : length (skipn 7 vs) = 9) by (rewrite skipn_length; lia).
      assert (F : Forall (fun l => length l = 4) (skipn 7 vs)).
      { rewrite <- (firstn_skipn 7 vs) in H3. apply Forall_app in H3. apply H3. }
      exact (F2_vectors 4 _ F 9 L).
  - constructor; [apply F2_pub|]. constructor; [apply F2_pub|]. constructor; [apply F2_pub|constructor].
Qed.

Definition avx512_t : machine taint :=
  Build_machine taint (repeat Junk 17 ++ map Pub (map CW [1; 2; 4; 8; 16]%N) ++ repeat Junk 2)
    (map (map (fun l : option nat => match l with Some _ => Sec | None => Pub (CW 0) end)) avx512_lanes ++ repeat (repeat Junk 8) 8 ++
     map (map Pub) (map (map CW) avx512_tables)) [map Pub (map CW avx512_round_constants)].
Lemma avx512_ok : exists r, traced_both taint t_count avx512_prologue 12 0 avx512_body avx512_t = Some r.
Proof. apply is_some. vm_compute. reflexivity. Qed.
Lemma avx512_constant_time : exists t, forall fuel rs vs st,
  12 <= fuel -> length rs = 24 -> firstn 5 (skipn 17 rs) = map CW [1; 2; 4; 8; 16]%N ->
  length vs = 8 -> Forall (fun l => length l = 8) vs ->
  exists m, avx512_traced fuel rs vs st = Some (t, m) /\ avx512_exec fuel avx512_lanes rs vs st = Some m.
Proof.
  destruct avx512_ok as [[t mt] E].
  exists t. intros fuel rs vs st Hf H1 Hm H2 H3. unfold avx512_traced, avx512_exec. refine (both_concrete _ _ _ _ _ _ _ E _ _ Hf _).
  unfold avx512_start, c_state, avx512_t. split; [|split]; cbn [regs vregs objects].
  - rewrite <- (firstn_skipn 17 rs), <- (firstn_skipn 5 (skipn 17 rs)), Hm.
    apply Forall2_app; [apply F2_junk; rewrite firstn_length; lia|]. apply Forall2_app; [apply F2_pub|].
    apply F2_junk. rewrite !skipn_length. lia.
  - apply Forall2_app; [|apply Forall2_app].
    + clear. induction avx512_lanes as [|l ls IH]; cbn [map]; constructor; [|exact IH].
      induction l as [|[i|] l IHl]; cbn [map]; constructor; cbn; eauto.
    + rewrite firstn_all2 by lia. exact (F2_vectors 8 _ H3 8 H2).
    + generalize (map (map CW) avx512_tables). intros l. induction l; cbn [map]; constructor; [apply F2_pub|assumption].
  - constructor; [apply F2_pub|constructor].
Qed.
