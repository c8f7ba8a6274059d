(** * Symbolic execution of the assembly machine *)
From Coq Require Import NArith Arith List Bool Lia ZifyBool ZifyNat ZifyN ZArith.
From Verif Require Import MKeccak MAsm.
Import ListNotations.
Ltac Zify.zify_post_hook ::= Z.div_mod_to_equations.

(** ** Runs over related values *)
Section Sim.
Context (A B : values) (cA : A -> option N) (cB : B -> option N) (R : A -> B -> Prop).

Definition opt_sim {X Y} (P : X -> Y -> Prop) (a : option X) (b : option Y) : Prop :=
  match a with Some x => exists y, b = Some y /\ P x y | None => True end.

Definition sim1 (f : A -> option A) (g : B -> option B) : Prop :=
  forall a b, R a b -> opt_sim R (f a) (g b).
Definition sim2 (f : A -> A -> option A) (g : B -> B -> option B) : Prop :=
  forall a b a' b', R a b -> R a' b' -> opt_sim R (f a a') (g b b').

Record simulates : Prop := {
  s_word : forall n, R (v_word A n) (v_word B n);
  s_ptr : forall o z, R (v_ptr A o z) (v_ptr B o z);
  s_to_ptr : forall a b, R a b -> opt_sim eq (v_to_ptr A a) (v_to_ptr B b);
  s_zero : forall a b, R a b -> opt_sim eq (v_zero A a) (v_zero B b);
  s_count : forall a b, R a b -> opt_sim eq (cA a) (cB b);
  s_dec : sim1 (v_dec A) (v_dec B);
  s_movk : forall i s, sim1 (v_movk A i s) (v_movk B i s);
  s_not : sim1 (v_not A) (v_not B);
  s_rol : forall k, sim1 (v_rol A k) (v_rol B k);
  s_ror : forall k, sim1 (v_ror A k) (v_ror B k);
  s_shl : forall k, sim1 (v_shl A k) (v_shl B k);
  s_shr : forall k, sim1 (v_shr A k) (v_shr B k);
  s_xor : sim2 (v_xor A) (v_xor B);
  s_and : sim2 (v_and A) (v_and B);
  s_or : sim2 (v_or A) (v_or B);
  s_add : sim2 (v_add A) (v_add B)
}.
Context (S : simulates).

Definition simm (m : machine A) (n : machine B) : Prop :=
  Forall2 R (regs A m) (regs B n) /\ Forall2 (Forall2 R) (vregs A m) (vregs B n) /\
  Forall2 (Forall2 R) (objects A m) (objects B n).

Lemma F2_nth {X Y} (P : X -> Y -> Prop) l l' i : Forall2 P l l' -> opt_sim P (nth_error l i) (nth_error l' i).
Proof.
  intros H. revert i. induction H as [|x y l l' H1 H2 IH]; intros [|i]; cbn; auto.
  exists y. auto.
Qed.
Lemma F2_upd {X Y} (P : X -> Y -> Prop) l l' i x y : Forall2 P l l' -> P x y ->
  opt_sim (Forall2 P) (upd l i x) (upd l' i y).
Proof.
  intros H Hx. revert i. induction H as [|a b l l' H1 H2 IH]; intros [|i]; cbn; auto.
  - eexists; split; [reflexivity | now constructor].
  - specialize (IH i). destruct (upd l i x); cbn in *; auto.
    destruct IH as (r & -> & Hr). eexists; split; [reflexivity | now constructor].
Qed.

Lemma opt_sim_bind {X Y X' Y'} (P : X -> Y -> Prop) (Q : X' -> Y' -> Prop) a b f g :
  opt_sim P a b -> (forall x y, P x y -> opt_sim Q (f x) (g y)) -> opt_sim Q (bind a f) (bind b g).
Proof. destruct a as [x|]; cbn; auto. intros (y & -> & H) F. now apply F. Qed.

Lemma sim_get m n r : simm m n -> opt_sim R (get A m r) (get B n r).
Proof. intros (H & _). now apply F2_nth. Qed.
Lemma sim_getv m n r : simm m n -> opt_sim (Forall2 R) (getv A m r) (getv B n r).
Proof. intros (_ & H & _). now apply F2_nth. Qed.
Lemma sim_set m n r x y : simm m n -> R x y -> opt_sim simm (set A m r x) (set B n r y).
Proof.
  intros (H1 & H2 & H3) Hx. unfold set. pose proof (F2_upd R _ _ r x y H1 Hx) as Hu.
  destruct (upd (regs A m) r x); cbn in *; auto. destruct Hu as (lu & -> & Hl).
  eexists; split; [reflexivity|]. repeat split; auto.
Qed.
Lemma sim_setv m n r x y : simm m n -> Forall2 R x y -> opt_sim simm (setv A m r x) (setv B n r y).
Proof.
  intros (H1 & H2 & H3) Hx. unfold setv. pose proof (F2_upd (Forall2 R) _ _ r x y H2 Hx) as Hu.
  destruct (upd (vregs A m) r x); cbn in *; auto. destruct Hu as (lu & -> & Hl).
  eexists; split; [reflexivity|]. repeat split; auto.
Qed.
Lemma sim_cell m n b off : simm m n -> opt_sim eq (cell A m b off) (cell B n b off).
Proof.
  intros H. unfold cell. pose proof (sim_get m n b H) as G.
  destruct (get A m b) as [p|]; cbn in *; auto. destruct G as (q & -> & Hq).
  pose proof (s_to_ptr S _ _ Hq) as P. destruct (v_to_ptr A p) as [[o z]|]; cbn in *; auto.
  destruct P as (oz & -> & <-). destruct ((0 <=? z + off) && ((z + off) mod 8 =? 0))%Z; cbn; eauto.
Qed.
Lemma sim_load m n b off : simm m n -> opt_sim R (load A m b off) (load B n b off).
Proof.
  intros H. unfold load. pose proof (sim_cell m n b off H) as G.
  destruct (cell A m b off) as [[o i]|]; cbn in *; auto. destruct G as (q & -> & <-).
  destruct H as (_ & _ & H). pose proof (F2_nth _ _ _ o H) as P.
  destruct (nth_error (objects A m) o); cbn in *; auto. destruct P as (l' & -> & Hl). now apply F2_nth.
Qed.
Lemma sim_store m n b off x y : simm m n -> R x y -> opt_sim simm (store A m b off x) (store B n b off y).
Proof.
  intros H Hx. unfold store. pose proof (sim_cell m n b off H) as G.
  destruct (cell A m b off) as [[o i]|]; cbn in *; auto. destruct G as (q & -> & <-).
  destruct H as (H1 & H2 & H). pose proof (F2_nth _ _ _ o H) as P.
  destruct (nth_error (objects A m) o) as [l|]; cbn in *; auto. destruct P as (l' & -> & Hl).
  pose proof (F2_upd R _ _ i x y Hl Hx) as U. destruct (upd l i x) as [l2|]; cbn in *; auto.
  destruct U as (l2' & -> & Hl2). pose proof (F2_upd (Forall2 R) _ _ o _ _ H Hl2) as U.
  destruct (upd (objects A m) o l2); cbn in *; auto. destruct U as (os & -> & Ho).
  eexists; split; [reflexivity|]. repeat split; auto.
Qed.
Lemma sim_loadv m n b off : simm m n -> opt_sim (Forall2 R) (loadv A m b off) (loadv B n b off).
Proof.
  intros H. unfold loadv.
  pose proof (sim_load m n b off H) as L0. pose proof (sim_load m n b (off + 8) H) as L1.
  pose proof (sim_load m n b (off + 16) H) as L2. pose proof (sim_load m n b (off + 24) H) as L3.
  destruct (load A m b off); cbn in *; auto. destruct L0 as (y0 & -> & H0).
  destruct (load A m b (off + 8)); cbn in *; auto. destruct L1 as (y1 & -> & H1).
  destruct (load A m b (off + 16)); cbn in *; auto. destruct L2 as (y2 & -> & H2).
  destruct (load A m b (off + 24)); cbn in *; auto. destruct L3 as (y3 & -> & H3).
  eexists; split; [reflexivity|]. repeat constructor; auto.
Qed.
Lemma sim_lanes1 f g x y : sim1 f g -> Forall2 R x y -> opt_sim (Forall2 R) (lanes1 A f x) (lanes1 B g y).
Proof.
  intros F H. induction H as [|a b x y H1 H2 IH]; cbn.
  - eexists; split; [reflexivity | constructor].
  - eapply opt_sim_bind; [now apply F|]. intros r s Hr. eapply opt_sim_bind; [apply IH|].
    intros rs ss Hrs. cbn. eexists; split; [reflexivity | now constructor].
Qed.
Lemma sim_lanes2 (f : A -> A -> option A) g x y x' y' : sim2 f g -> Forall2 R x y -> Forall2 R x' y' ->
  opt_sim (Forall2 R) (lanes2 A f x x') (lanes2 B g y y').
Proof.
  intros F H. revert x' y'. induction H as [|a b x y H1 H2 IH]; intros x' y' H'; destruct H' as [|a' b' x' y' H1' H2']; cbn; auto.
  - eexists; split; [reflexivity | constructor].
  - eapply opt_sim_bind; [now apply F|]. intros r s Hr. eapply opt_sim_bind; [now apply IH|].
    intros rs ss Hrs. cbn. eexists; split; [reflexivity | now constructor].
Qed.
Lemma sim_shift_by f g : (forall k, sim1 (f k) (g k)) -> sim2 (shift_by A cA f) (shift_by B cB g).
Proof.
  intros F a b a' b' Ha Hb. unfold shift_by. eapply opt_sim_bind; [now apply (s_count S)|].
  intros k k' <-. now apply F.
Qed.
Lemma sim_pick x y is : Forall2 R x y -> opt_sim (Forall2 R) (pick A x is) (pick B y is).
Proof.
  intros H. unfold pick. induction is as [|i is IH]; cbn.
  - eexists; split; [reflexivity | constructor].
  - eapply opt_sim_bind; [apply (F2_nth R); exact H|]. intros r s Hr. eapply opt_sim_bind; [apply IH|].
    intros rs ss Hrs. cbn. eexists; split; [reflexivity | now constructor].
Qed.

Lemma sim_counts x y : Forall2 R x y -> opt_sim eq (counts A cA x) (counts B cB y).
Proof.
  intros H. induction H as [|a b x y H1 H2 IH]; cbn; [eauto|].
  eapply opt_sim_bind; [now apply (s_count S)|]. intros k k' <-.
  eapply opt_sim_bind; [apply IH|]. intros r r' <-. cbn. eauto.
Qed.
Lemma sim_masked_xor m n b off mask x y x' y' : simm m n -> Forall2 R x y -> Forall2 R x' y' ->
  opt_sim (Forall2 R) (masked_xor A m b off mask x x') (masked_xor B n b off mask y y').
Proof.
  intros H F. revert off mask x' y'. induction F as [|a c x y F1 F2 IH]; intros off mask x' y' G; destruct G as [|a' c' x' y' G1 G2]; cbn; auto.
  - eexists; split; [reflexivity | constructor].
  - eapply (opt_sim_bind R).
    + destruct (N.testbit mask 0); [|cbn; eauto].
      eapply opt_sim_bind; [now apply sim_load|]. intros u v Hu. now apply (s_xor S).
    + intros u v Hu. eapply opt_sim_bind; [now apply IH|]. intros rs ss Hr. cbn. eexists; split; [reflexivity | now constructor].
Qed.
Lemma sim_blend mask x y x' y' : Forall2 R x y -> Forall2 R x' y' ->
  opt_sim (Forall2 R) (blend A mask x x') (blend B mask y y').
Proof.
  intros F. revert mask x' y'. induction F as [|a c x y F1 F2 IH]; intros mask x' y' G; destruct G as [|a' c' x' y' G1 G2]; cbn; auto.
  - eexists; split; [reflexivity | constructor].
  - eapply opt_sim_bind; [now apply IH|]. intros rs ss Hr. cbn. eexists; split; [reflexivity|].
    constructor; [|exact Hr]. destruct (N.testbit mask 0); auto.
Qed.

Ltac bd := eapply opt_sim_bind; [first [now apply sim_get | now apply sim_getv | now apply sim_load | now apply sim_loadv |
  now apply (s_xor S) | now apply (s_and S) | now apply (s_not S) | now apply (s_rol S) | now apply (s_ror S) |
  now apply (s_dec S) | now apply (s_movk S) | now apply (s_to_ptr S) | now apply sim_set | now apply sim_store |
  now apply sim_pick |
  (apply sim_lanes2; [first [apply (s_xor S) | apply (s_and S) | apply (s_or S) | apply (s_add S) |
      apply sim_shift_by; first [apply (s_shl S) | apply (s_shr S) | intros ?; apply (s_rol S)]] | assumption | assumption]) |
  (apply sim_lanes1; [first [apply (s_not S) | apply (s_shr S) | apply (s_rol S)] | assumption])] | intros ? ? ?].

Lemma sim_step i m n : simm m n -> opt_sim simm (step A cA i m) (step B cB i n).
Proof.
  intros H. destruct i; cbn [step]; repeat bd;
    try (now apply sim_set); try (now apply sim_setv); try (now apply sim_store);
    try (apply sim_set; [assumption | first [apply (s_word S) | apply (s_ptr S)]]).
  - subst. apply sim_set; [assumption | apply (s_ptr S)].
  - subst. apply sim_set; [assumption | apply (s_ptr S)].
  - destruct (_ && _)%bool; [|exact I]. bd. now apply sim_setv.
  - destruct (k =? 8)%N; [|exact I].
    repeat match goal with H : Forall2 R _ _ |- _ => destruct H; cbn [opt_sim]; try exact I end.
    apply sim_setv; [assumption|]. repeat constructor; auto; apply (s_word S).
  - destruct (_ && _)%bool; [|exact I].
    eapply opt_sim_bind; [apply sim_pick; now apply Forall2_app | intros ? ? ?]. now apply sim_setv.
  - destruct (imm =? 150)%N; [|destruct (imm =? 210)%N; [|exact I]]; repeat bd; now apply sim_setv.
  - eapply opt_sim_bind; [now apply sim_counts|]. intros c c' <-. bd. now apply sim_setv.
  - eapply opt_sim_bind; [now apply (s_count S)|]. intros c c' <-.
    eapply opt_sim_bind; [now apply sim_masked_xor | intros ? ? ?]. now apply sim_setv.
  - eapply opt_sim_bind; [now apply (s_count S)|]. intros c c' <-.
    eapply opt_sim_bind; [now apply sim_blend | intros ? ? ?]. now apply sim_setv.
Qed.

Lemma sim_run p m n : simm m n -> opt_sim simm (run A cA p m) (run B cB p n).
Proof.
  revert m n. induction p as [|i p IH]; intros m n H; cbn [run].
  - cbn. eauto.
  - eapply opt_sim_bind; [now apply sim_step | apply IH].
Qed.
Lemma sim_loop fuel c p m n : simm m n -> opt_sim simm (loop A cA fuel c p m) (loop B cB fuel c p n).
Proof.
  revert m n. induction fuel as [|fuel IH]; intros m n H; cbn [loop]; [exact I|].
  eapply opt_sim_bind; [now apply sim_run|]. intros m' n' H'.
  eapply opt_sim_bind; [now apply sim_get|]. intros x y Hx.
  eapply opt_sim_bind; [now apply (s_zero S)|]. intros z z' <-.
  destruct z; [cbn; eauto | now apply IH].
Qed.
End Sim.

(** ** Symbolic words: on the bits from lo to hi-1, the exclusive or of a constant, of rotated
    variables, and of products of two such sums; zero elsewhere *)
Definition lin : Type := N * list (N * N).
Record sw := { lo : N; hi : N; ln : lin; pr : list (lin * lin) }.

Local Open Scope N_scope.
Section Den.
Context (env : N -> N).
Definition atom_bit (a : N * N) (j : N) : bool := N.testbit (env (fst a)) ((j + (64 - snd a mod 64)) mod 64).
Definition atoms_bit (l : list (N * N)) (j : N) : bool := fold_right (fun a b => xorb (atom_bit a j) b) false l.
Definition lin_bit (l : lin) (j : N) : bool := xorb (N.testbit (fst l) j) (atoms_bit (snd l) j).
Definition prods_bit (l : list (lin * lin)) (j : N) : bool :=
  fold_right (fun p b => xorb (lin_bit (fst p) j && lin_bit (snd p) j) b) false l.
Definition sw_bit (s : sw) (j : N) : bool :=
  (lo s <=? j) && (j <? hi s) && xorb (lin_bit (ln s) j) (prods_bit (pr s) j).
Definition rep (s : sw) (w : N) : Prop :=
  w < 2 ^ 64 /\ forall j, j < 64 -> N.testbit w j = sw_bit s j.
End Den.

(** Normal form of a sum of atoms: sorted, without repetition. *)
Definition cmp_atom (a b : N * N) : comparison :=
  match fst a ?= fst b with Eq => snd a ?= snd b | c => c end.
Fixpoint toggle (a : N * N) (l : list (N * N)) : list (N * N) :=
  match l with
  | [] => [a]
  | b :: l' => match cmp_atom a b with
               | Eq => l'
               | Lt => a :: l
               | Gt => b :: toggle a l'
               end
  end.
Definition add_atoms (l l' : list (N * N)) : list (N * N) := fold_right toggle l' l.
Definition add_lin (a b : lin) : lin := (N.lxor (fst a) (fst b), add_atoms (snd a) (snd b)).

Definition atom_eqb (a b : N * N) : bool := (fst a =? fst b) && (snd a =? snd b).
Fixpoint atoms_eqb (l l' : list (N * N)) : bool :=
  match l, l' with
  | [], [] => true
  | a :: l, b :: l' => atom_eqb a b && atoms_eqb l l'
  | _, _ => false
  end.
Definition lin_eqb (a b : lin) : bool := (fst a =? fst b) && atoms_eqb (snd a) (snd b).
Definition prod_eqb (p q : lin * lin) : bool :=
  lin_eqb (fst p) (fst q) && lin_eqb (snd p) (snd q) || lin_eqb (fst p) (snd q) && lin_eqb (snd p) (fst q).
Fixpoint prods_eqb (l l' : list (lin * lin)) : bool :=
  match l, l' with
  | [], [] => true
  | a :: l, b :: l' => prod_eqb a b && prods_eqb l l'
  | _, _ => false
  end.
Definition sw_eqb (s t : sw) : bool :=
  (lo s =? lo t) && (hi s =? hi t) && lin_eqb (ln s) (ln t) && prods_eqb (pr s) (pr t).

Definition full (s : sw) : bool := (lo s =? 0) && (hi s =? 64).
Definition linear (s : sw) : bool := match pr s with [] => full s | _ => false end.
Definition sconst (n : N) : sw := {| lo := 0; hi := 64; ln := (n mod 2 ^ 64, []); pr := [] |}.
Definition svar (v : N) : sw := {| lo := 0; hi := 64; ln := (0, [(v, 0)]); pr := [] |}.
Definition is_const (s : sw) : option N :=
  match s with {| lo := 0; hi := 64; ln := (n, []); pr := [] |} => Some (n mod 2 ^ 64) | _ => None end.
Definition sxor (s t : sw) : option sw :=
  if full s && full t then Some {| lo := 0; hi := 64; ln := add_lin (ln s) (ln t); pr := pr s ++ pr t |} else None.
Definition snot (s : sw) : option sw :=
  if full s then Some {| lo := 0; hi := 64; ln := (N.lxor (fst (ln s)) (2 ^ 64 - 1), snd (ln s)); pr := pr s |} else None.
Definition sand (s t : sw) : option sw :=
  if linear s && linear t then Some {| lo := 0; hi := 64; ln := (0, []); pr := [(ln s, ln t)] |} else None.
Definition rot_atom (k : N) (a : N * N) : N * N := (fst a, (snd a + k) mod 64).
Definition rot_lin (k : N) (l : lin) : lin :=
  (rotl 64 k (fst l mod 2 ^ 64), fold_right (fun a r => toggle (rot_atom k a) r) [] (snd l)).
Definition srol (k : N) (s : sw) : option sw :=
  if linear s && (k <? 64) then Some {| lo := 0; hi := 64; ln := rot_lin k (ln s); pr := [] |} else None.
Definition sshl (k : N) (s : sw) : option sw :=
  if linear s && (k <? 64) then Some {| lo := k; hi := 64; ln := rot_lin k (ln s); pr := [] |} else None.
Definition sshr (k : N) (s : sw) : option sw :=
  if linear s && (0 <? k) && (k <? 64) then Some {| lo := 0; hi := 64 - k; ln := rot_lin (64 - k) (ln s); pr := [] |} else None.
Definition sor (s t : sw) : option sw :=
  if lin_eqb (ln s) (ln t) then
    match pr s, pr t with
    | [], [] =>
        if (lo s =? 0) && (hi s =? lo t) && (hi t =? 64) && (hi s <=? 64) then Some {| lo := 0; hi := 64; ln := ln s; pr := [] |}
        else if (lo t =? 0) && (hi t =? lo s) && (hi s =? 64) && (hi t <=? 64) then Some {| lo := 0; hi := 64; ln := ln s; pr := [] |}
        else None
    | _, _ => None
    end
  else None.
Definition sadd (s t : sw) : option sw := if sw_eqb s t then sshl 1 s else None.

Section Sound.
Context (env : N -> N) (Henv : forall v, env v < 2 ^ 64).

Lemma lt_testbit w : w < 2 ^ 64 -> forall j, 64 <= j -> N.testbit w j = false.
Proof.
  intros H j Hj. destruct (N.eq_dec w 0) as [-> | Hw]; [apply N.bits_0|].
  apply N.bits_above_log2. apply N.lt_le_trans with 64; auto. apply N.log2_lt_pow2; lia.
Qed.
Lemma testbit_lt w : (forall j, 64 <= j -> N.testbit w j = false) -> w < 2 ^ 64.
Proof.
  intros H. destruct (N.eq_dec w 0) as [-> | Hw]; [reflexivity|].
  apply N.log2_lt_pow2; [lia|]. destruct (N.lt_ge_cases (N.log2 w) 64) as [L | L]; auto.
  apply H in L. rewrite N.bit_log2 in L; [discriminate | auto].
Qed.
Lemma rep_unique s w w' : rep env s w -> rep env s w' -> w = w'.
Proof.
  intros [H1 H2] [H3 H4]. apply N.bits_inj. intros j. destruct (N.lt_ge_cases j 64) as [L | L].
  - now rewrite H2, H4.
  - now rewrite !lt_testbit.
Qed.

Lemma cmp_atom_eq a b : cmp_atom a b = Eq -> a = b.
Proof.
  destruct a as [a1 a2], b as [b1 b2]. unfold cmp_atom. cbn.
  destruct (a1 ?= b1) eqn:E; try discriminate. intros F.
  apply N.compare_eq in E, F. now subst.
Qed.
Lemma toggle_bit a l j : atoms_bit env (toggle a l) j = xorb (atom_bit env a j) (atoms_bit env l j).
Proof.
  induction l as [|b l IH]; [reflexivity|]. cbn [toggle]. destruct (cmp_atom a b) eqn:E.
  - apply cmp_atom_eq in E. subst. cbn. now rewrite <- xorb_assoc, xorb_nilpotent, xorb_false_l.
  - reflexivity.
  - cbn. fold (atoms_bit env (toggle a l) j). rewrite IH. cbn. fold (atoms_bit env l j).
    rewrite <- !xorb_assoc. f_equal. apply xorb_comm.
Qed.
Lemma add_atoms_bit l l' j : atoms_bit env (add_atoms l l') j = xorb (atoms_bit env l j) (atoms_bit env l' j).
Proof.
  induction l as [|a l IH]; [symmetry; apply xorb_false_l|]. cbn [add_atoms fold_right].
  rewrite toggle_bit. change (fold_right toggle l' l) with (add_atoms l l'). rewrite IH. cbn.
  fold (atoms_bit env l j). now rewrite xorb_assoc.
Qed.
Lemma add_lin_bit a b j : lin_bit env (add_lin a b) j = xorb (lin_bit env a j) (lin_bit env b j).
Proof.
  unfold lin_bit, add_lin. cbn [fst snd]. rewrite N.lxor_spec, add_atoms_bit.
  destruct (N.testbit (fst a) j), (N.testbit (fst b) j), (atoms_bit env (snd a) j), (atoms_bit env (snd b) j); reflexivity.
Qed.
Lemma prods_app l l' j : prods_bit env (l ++ l') j = xorb (prods_bit env l j) (prods_bit env l' j).
Proof.
  induction l as [|p l IH]; [symmetry; apply xorb_false_l|]. cbn.
  fold (prods_bit env (l ++ l') j) (prods_bit env l j). now rewrite IH, xorb_assoc.
Qed.

Lemma atoms_eqb_eq l l' : atoms_eqb l l' = true -> l = l'.
Proof.
  revert l'. induction l as [|[a b] l IH]; destruct l' as [|[c d] l']; cbn; try discriminate; auto.
  unfold atom_eqb. cbn. intros H. apply andb_prop in H as [H1 H2]. apply andb_prop in H1 as [H0 H1].
  apply N.eqb_eq in H0, H1. subst. f_equal. now apply IH.
Qed.
Lemma lin_eqb_eq a b : lin_eqb a b = true -> a = b.
Proof.
  destruct a as [a l], b as [b l']. unfold lin_eqb. cbn. intros H. apply andb_prop in H as [H1 H2].
  apply N.eqb_eq in H1. apply atoms_eqb_eq in H2. now subst.
Qed.
Lemma prods_eqb_bit l l' j : prods_eqb l l' = true -> prods_bit env l j = prods_bit env l' j.
Proof.
  revert l'. induction l as [|p l IH]; destruct l' as [|q l']; cbn; try discriminate; auto.
  intros H. apply andb_prop in H as [H1 H2]. fold (prods_bit env l j) (prods_bit env l' j).
  rewrite (IH _ H2). f_equal. apply orb_prop in H1 as [H1 | H1]; apply andb_prop in H1 as [H0 H1];
    apply lin_eqb_eq in H0, H1; rewrite H0, H1; [reflexivity | apply andb_comm].
Qed.
Lemma sw_eqb_bit s t j : sw_eqb s t = true -> sw_bit env s j = sw_bit env t j.
Proof.
  unfold sw_eqb. intros H. apply andb_prop in H as [H H4]. apply andb_prop in H as [H H3].
  apply andb_prop in H as [H1 H2]. apply N.eqb_eq in H1, H2. apply lin_eqb_eq in H3.
  unfold sw_bit. rewrite H1, H2, H3. now rewrite (prods_eqb_bit _ _ j H4).
Qed.
Lemma sw_eqb_rep s t w : sw_eqb s t = true -> rep env s w -> rep env t w.
Proof. intros E [H1 H2]. split; auto. intros j Hj. rewrite <- (sw_eqb_bit s t j E). auto. Qed.

Lemma full_bit s j : full s = true -> j < 64 -> sw_bit env s j = xorb (lin_bit env (ln s) j) (prods_bit env (pr s) j).
Proof. unfold full, sw_bit. intros H Hj. replace ((lo s <=? j) && (j <? hi s)) with true; [reflexivity | lia]. Qed.
Lemma linear_bit s j : linear s = true -> j < 64 -> sw_bit env s j = lin_bit env (ln s) j.
Proof.
  unfold linear. destruct (pr s) eqn:E; [|discriminate]. intros H Hj. rewrite full_bit by auto.
  rewrite E. cbn. apply xorb_false_r.
Qed.
Lemma mk_full_bit l p j : j < 64 -> sw_bit env {| lo := 0; hi := 64; ln := l; pr := p |} j = xorb (lin_bit env l j) (prods_bit env p j).
Proof. intros H. now apply full_bit. Qed.

Lemma testbit_mod64 n j : j < 64 -> N.testbit (n mod 2 ^ 64) j = N.testbit n j.
Proof. intros H. now rewrite N.mod_pow2_bits_low. Qed.
Lemma mod64_lt n : n mod 2 ^ 64 < 2 ^ 64.
Proof. now apply N.mod_lt. Qed.

Lemma sconst_rep n : rep env (sconst n) (n mod 2 ^ 64).
Proof.
  split; [apply mod64_lt|]. intros j Hj. unfold sconst. rewrite mk_full_bit by auto. unfold lin_bit. cbn [fst snd atoms_bit fold_right prods_bit].
  now rewrite !xorb_false_r.
Qed.
Lemma sconst_rep' n : n < 2 ^ 64 -> rep env (sconst n) n.
Proof. intros H. rewrite <- (N.mod_small n (2 ^ 64)) at 2 by auto. apply sconst_rep. Qed.
Lemma svar_rep v : rep env (svar v) (env v).
Proof.
  split; auto. intros j Hj. unfold svar. rewrite mk_full_bit by auto. unfold lin_bit, atoms_bit, atom_bit.
  cbn [fst snd fold_right prods_bit]. rewrite N.bits_0, !xorb_false_r. replace ((j + (64 - 0 mod 64)) mod 64) with j by lia. now destruct (N.testbit (env v) j).
Qed.
Lemma is_const_rep s n w : is_const s = Some n -> rep env s w -> w = n.
Proof.
  destruct s as [l h [k [|? ?]] [|? ?]]; cbn; try (destruct l; destruct h as [|h]; try discriminate).
  all: try (do 7 (destruct h; try discriminate)); try discriminate.
  intros E H. apply (rep_unique _ _ _ H). injection E as <-. split; [apply mod64_lt|].
  intros j Hj. change (N.pos 64) with 64. rewrite mk_full_bit by auto. unfold lin_bit. cbn [fst snd atoms_bit fold_right prods_bit].
  rewrite !xorb_false_r. now rewrite testbit_mod64.
Qed.
Lemma sxor_rep s t r w w' : sxor s t = Some r -> rep env s w -> rep env t w' -> rep env r (N.lxor w w').
Proof.
  unfold sxor. destruct (full s && full t) eqn:F; [|discriminate]. apply andb_prop in F as [F1 F2].
  intros [= <-] [H1 H2] [H3 H4]. split.
  - apply testbit_lt. intros j Hj. rewrite N.lxor_spec, !lt_testbit by auto. reflexivity.
  - intros j Hj. rewrite N.lxor_spec, H2, H4, mk_full_bit, !full_bit by auto. rewrite add_lin_bit, prods_app.
    destruct (lin_bit env (ln s) j), (lin_bit env (ln t) j), (prods_bit env (pr s) j), (prods_bit env (pr t) j); reflexivity.
Qed.
Lemma testbit_ones j : j < 64 -> N.testbit (2 ^ 64 - 1) j = true.
Proof. intros H. replace (2 ^ 64 - 1) with (N.ones 64) by reflexivity. now apply N.ones_spec_low. Qed.
Lemma snot_rep s r w : snot s = Some r -> rep env s w -> rep env r (not64 w).
Proof.
  unfold snot. destruct (full s) eqn:F; [|discriminate].
  intros [= <-] [H1 H2]. split.
  - apply testbit_lt. intros j Hj. unfold not64. rewrite N.lnot_spec_high, lt_testbit by auto. reflexivity.
  - intros j Hj. unfold not64. rewrite N.lnot_spec_low by auto. rewrite H2, mk_full_bit, !full_bit by auto.
    unfold lin_bit. cbn [fst snd]. rewrite N.lxor_spec, testbit_ones by auto.
    destruct (N.testbit (fst (ln s)) j), (atoms_bit env (snd (ln s)) j), (prods_bit env (pr s) j); reflexivity.
Qed.
Lemma sand_rep s t r w w' : sand s t = Some r -> rep env s w -> rep env t w' -> rep env r (N.land w w').
Proof.
  unfold sand. destruct (linear s && linear t) eqn:F; [|discriminate]. apply andb_prop in F as [F1 F2].
  intros [= <-] [H1 H2] [H3 H4]. split.
  - apply testbit_lt. intros j Hj. rewrite N.land_spec, !lt_testbit by auto. reflexivity.
  - intros j Hj. rewrite N.land_spec, H2, H4, mk_full_bit, !linear_bit by auto.
    unfold lin_bit at 3. cbn [fst snd atoms_bit fold_right prods_bit]. rewrite N.bits_0, !xorb_false_r. now destruct (lin_bit env (ln s) j && lin_bit env (ln t) j).
Qed.

Lemma rotl_bit k w j : k < 64 -> j < 64 -> w < 2 ^ 64 -> N.testbit (rotl 64 k w) j = N.testbit w ((j + (64 - k)) mod 64).
Proof.
  intros Hk Hj Hw. unfold rotl. rewrite N.lor_spec, testbit_mod64, N.shiftr_spec' by auto.
  destruct (N.lt_ge_cases j k) as [L | L].
  - rewrite N.shiftl_spec_low by auto. cbn [orb]. f_equal. lia.
  - rewrite N.shiftl_spec_high' by auto. rewrite (lt_testbit w Hw (j + (64 - k))) by lia. rewrite orb_false_r.
    f_equal. lia.
Qed.
Lemma rotl_lt k w : k <= 64 -> w < 2 ^ 64 -> rotl 64 k w < 2 ^ 64.
Proof.
  intros Hk Hw. apply testbit_lt. intros j Hj. unfold rotl. rewrite N.lor_spec, N.shiftr_spec'.
  rewrite (lt_testbit _ (mod64_lt _)) by auto. rewrite lt_testbit; auto. lia.
Qed.
Lemma rot_lin_bit k l j : k <= 64 -> j < 64 -> lin_bit env (rot_lin k l) j = lin_bit env l ((j + (64 - k)) mod 64).
Proof.
  intros Hk Hj. unfold lin_bit, rot_lin. cbn [fst snd]. f_equal.
  - destruct (N.eq_dec k 64) as [-> | Hne].
    + unfold rotl. rewrite N.lor_spec, testbit_mod64, N.shiftl_spec_low, N.shiftr_spec' by auto. cbn [orb].
      replace (j + (64 - 64)) with j by lia. rewrite testbit_mod64 by auto. f_equal. lia.
    + rewrite rotl_bit by (try apply mod64_lt; lia). rewrite testbit_mod64 by lia. reflexivity.
  - induction (snd l) as [|a r IH]; [reflexivity|]. cbn [fold_right]. rewrite toggle_bit, IH.
    change (atoms_bit env (a :: r)) with (fun j => xorb (atom_bit env a j) (atoms_bit env r j)). cbv beta.
    f_equal. unfold atom_bit, rot_atom. cbn [fst snd]. f_equal. lia.
Qed.
Lemma srol_rep k s r w : srol k s = Some r -> rep env s w -> rep env r (rotl 64 k w).
Proof.
  unfold srol. destruct (linear s && (k <? 64)) eqn:F; [|discriminate]. apply andb_prop in F as [F1 F2].
  intros [= <-] [H1 H2]. assert (Hk : k < 64) by lia. split.
  - apply rotl_lt; auto; lia.
  - intros j Hj. rewrite rotl_bit, mk_full_bit by auto. rewrite H2 by lia. rewrite linear_bit by (auto; lia).
    rewrite rot_lin_bit by lia. cbn. now rewrite xorb_false_r.
Qed.
Lemma rotr_rotl k w : k <= 64 -> rotr64 k w = rotl 64 (64 - k) w.
Proof. intros Hk. unfold rotr64, rotl. rewrite N.lor_comm. do 2 f_equal. lia. Qed.
Lemma sror_rep k s r w : 0 < k <= 64 -> srol (64 - k) s = Some r -> rep env s w -> rep env r (rotr64 k w).
Proof. intros Hk H1 H2. rewrite rotr_rotl by lia. eapply srol_rep; eauto. Qed.
Lemma sshl_rep k s r w : sshl k s = Some r -> rep env s w -> rep env r (N.shiftl w k mod 2 ^ 64).
Proof.
  unfold sshl. destruct (linear s && (k <? 64)) eqn:F; [|discriminate]. apply andb_prop in F as [F1 F2].
  intros [= <-] [H1 H2]. assert (Hk : k < 64) by lia. split; [apply mod64_lt|].
  intros j Hj. rewrite testbit_mod64 by auto. unfold sw_bit. cbn [lo hi ln pr prods_bit fold_right]. rewrite xorb_false_r.
  destruct (N.lt_ge_cases j k) as [L | L].
  - rewrite N.shiftl_spec_low by auto. replace (k <=? j) with false by lia. reflexivity.
  - rewrite N.shiftl_spec_high' by auto. replace (k <=? j) with true by lia. replace (j <? 64) with true by lia.
    cbn [andb]. rewrite rot_lin_bit by lia. rewrite H2, linear_bit by (auto; lia). f_equal. lia.
Qed.
Lemma some_inj {T} (a b : T) : Some a = Some b -> a = b.
Proof. congruence. Qed.
Lemma sshr_rep k s r w : sshr k s = Some r -> rep env s w -> rep env r (N.shiftr w k).
Proof.
  unfold sshr. destruct (linear s && (0 <? k) && (k <? 64)) eqn:F; [|discriminate]. apply andb_prop in F as [F1 F2].
  apply andb_prop in F1 as [F1 F3].
  intros Hr [H1 H2]. apply some_inj in Hr. subst r. assert (Hk : 0 < k < 64) by lia. split.
  - apply testbit_lt. intros j Hj. rewrite N.shiftr_spec', lt_testbit; auto. lia.
  - intros j Hj. rewrite N.shiftr_spec'. unfold sw_bit. cbn [lo hi ln pr prods_bit fold_right]. rewrite xorb_false_r.
    replace (0 <=? j) with true by lia. cbn [andb]. destruct (N.lt_ge_cases (j + k) 64) as [L | L].
    + replace (j <? 64 - k) with true by lia. rewrite (rot_lin_bit (64 - k) (ln s) j) by (clear - Hk Hj L; lia). rewrite H2, linear_bit by (auto; lia).
      cbn [andb]. f_equal. clear - Hk Hj L. lia.
    + replace (j <? 64 - k) with false by lia. apply lt_testbit; auto.
Qed.
Lemma sor_rep s t r w w' : sor s t = Some r -> rep env s w -> rep env t w' -> rep env r (N.lor w w').
Proof.
  unfold sor. destruct (lin_eqb (ln s) (ln t)) eqn:E; [|discriminate]. apply lin_eqb_eq in E.
  destruct (pr s) eqn:Es; [|discriminate]. destruct (pr t) eqn:Et; [|discriminate].
  intros Hr [H1 H2] [H3 H4].
  assert (G : r = {| lo := 0; hi := 64; ln := ln s; pr := [] |} /\
     forall j, j < 64 -> ((lo s <=? j) && (j <? hi s)) || ((lo t <=? j) && (j <? hi t)) = true).
  { match type of Hr with (if ?c then _ else _) = _ => destruct c eqn:F end.
    - injection Hr as <-. split; [reflexivity|]. intros. clear - F H. lia.
    - clear F. match type of Hr with (if ?c then _ else _) = _ => destruct c eqn:F end; [|discriminate].
      injection Hr as <-. split; [reflexivity|]. intros. clear - F H. lia. }
  destruct G as [-> G]. split.
  - apply testbit_lt. intros j Hj. rewrite N.lor_spec, !lt_testbit by auto. reflexivity.
  - intros j Hj. rewrite N.lor_spec, H2, H4, mk_full_bit by auto. unfold sw_bit. rewrite Es, Et, <- E.
    specialize (G j Hj). cbn [prods_bit fold_right]. rewrite xorb_false_r.
    destruct ((lo s <=? j) && (j <? hi s)), ((lo t <=? j) && (j <? hi t)), (lin_bit env (ln s) j); auto.
Qed.
Lemma sadd_rep s t r w w' : sadd s t = Some r -> rep env s w -> rep env t w' -> rep env r ((w + w') mod 2 ^ 64).
Proof.
  unfold sadd. destruct (sw_eqb s t) eqn:E; [|discriminate]. intros Hr Hw Hw'.
  apply (sw_eqb_rep _ _ _ E) in Hw as Hw2. rewrite <- (rep_unique _ _ _ Hw2 Hw').
  replace (w + w) with (N.shiftl w 1) by (rewrite N.shiftl_mul_pow2; change (2 ^ 1) with 2; lia).
  eapply sshl_rep; eauto.
Qed.
End Sound.

(** ** Symbolic values *)
Inductive sval := SW (s : sw) | SP (obj : nat) (off : Z) | SO (k : N).

Definition sw1 (f : sw -> option sw) (x : sval) : option sval :=
  match x with SW a => match f a with Some r => Some (SW r) | None => None end | _ => None end.
Definition sw2 (f : sw -> sw -> option sw) (x y : sval) : option sval :=
  match x, y with SW a, SW b => match f a b with Some r => Some (SW r) | None => None end | _, _ => None end.

Definition sconst1 (f : N -> N) (s : sw) : option sw :=
  match is_const s with Some n => Some (sconst (f n mod 2 ^ 64)) | None => None end.

Definition symbolic : values := {|
  V := sval;
  v_word := fun n => SW (sconst n);
  v_ptr := SP;
  v_to_ptr := fun x => match x with SP o z => Some (o, z) | _ => None end;
  v_zero := fun x => match x with
                     | SW s => match is_const s with Some n => Some (n =? 0) | None => None end
                     | _ => None end;
  v_dec := sw1 (sconst1 (fun n => n + (2 ^ 64 - 1)));
  v_movk := fun imm sh => sw1 (fun s => match is_const s with
     | Some n => let r := N.lor (N.ldiff n (N.shiftl 0xFFFF sh)) (N.shiftl imm sh) in
                 if r <? 2 ^ 64 then Some (sconst r) else None
     | None => None end);
  v_not := sw1 snot;
  v_rol := fun k => sw1 (srol k);
  v_ror := fun k => sw1 (fun s => if (0 <? k) && (k <=? 64) then srol (64 - k) s else None);
  v_shl := fun k => sw1 (sshl k);
  v_shr := fun k => sw1 (sshr k);
  v_xor := sw2 sxor;
  v_and := sw2 sand;
  v_or := sw2 sor;
  v_add := sw2 sadd
|}.
Definition s_cnt (x : sval) : option N := match x with SW s => is_const s | _ => None end.

Definition rel (env : N -> N) (oenv : N -> cval) (x : sval) (y : cval) : Prop :=
  match x, y with
  | SW s, CW w => rep env s w
  | SP o z, CP o' z' => o = o' /\ z = z'
  | SO k, _ => y = oenv k
  | _, _ => False
  end.

Section SimSym.
Context (env : N -> N) (oenv : N -> cval) (Henv : forall v, env v < 2 ^ 64).

Lemma sw1_sim f g : (forall s r w, f s = Some r -> rep env s w -> rep env r (g w)) ->
  sim1 symbolic concrete (rel env oenv) (sw1 f) (word1 g).
Proof.
  intros F [s | o z | k] [w | o' z'] H; cbn in *; auto; try (now destruct H); try contradiction.
  destruct (f s) as [r|] eqn:E; cbn; auto. eexists; split; [reflexivity|]. cbn. eauto.
Qed.
Lemma sw2_sim f g : (forall s t r w w', f s t = Some r -> rep env s w -> rep env t w' -> rep env r (g w w')) ->
  sim2 symbolic concrete (rel env oenv) (sw2 f) (word2 g).
Proof.
  intros F [s | o z | k] [w | o' z'] [s1 | o1 z1 | k1] [w1 | o1' z1'] H H'; cbn in *; auto; try contradiction.
  destruct (f s s1) as [r|] eqn:E; cbn; auto. eexists; split; [reflexivity|]. cbn. eauto.
Qed.

Lemma symbolic_simulates : simulates symbolic concrete s_cnt c_count (rel env oenv).
Proof.
  constructor.
  - intros n. cbn. apply sconst_rep; auto.
  - intros o z. cbn. auto.
  - intros [s | o z | k] [w | o' z'] H; cbn in *; auto; try contradiction. destruct H as [-> ->]. eauto.
  - intros [s | o z | k] [w | o' z'] H; cbn in *; auto; try contradiction.
    destruct (is_const s) as [n|] eqn:E; cbn; auto. eexists; split; [reflexivity|].
    now rewrite (is_const_rep env Henv s n w E H).
  - intros [s | o z | k] [w | o' z'] H; cbn in *; auto; try contradiction.
    destruct (is_const s) as [n|] eqn:E; cbn; auto. eexists; split; [reflexivity|].
    now rewrite (is_const_rep env Henv s n w E H).
  - intros [s | o z | k] [w | o' z'] H; cbn -[N.pow] in *; auto; try contradiction. unfold sconst1.
    destruct (is_const s) as [n|] eqn:E; cbn -[N.pow]; auto. eexists; split; [reflexivity|].
    rewrite (is_const_rep env Henv s n w E H). cbn -[N.pow]. apply sconst_rep'; [exact Henv | now apply N.mod_lt].
  - intros i sh. apply sw1_sim. intros s r w Hr H.
    destruct (is_const s) as [n|] eqn:E; [|discriminate]. cbv zeta in Hr.
    rewrite (is_const_rep env Henv s n w E H).
    destruct (_ <? 2 ^ 64) eqn:L in Hr; [|discriminate]. injection Hr as <-. apply sconst_rep'; [exact Henv | now apply N.ltb_lt].
  - apply sw1_sim. intros. eapply snot_rep; eauto.
  - intros k. apply sw1_sim. intros. eapply srol_rep; eauto.
  - intros k. apply sw1_sim. intros s r w Hr H. destruct ((0 <? k) && (k <=? 64)) eqn:L; [|discriminate].
    eapply sror_rep; eauto. lia.
  - intros k. apply sw1_sim. intros. eapply sshl_rep; eauto.
  - intros k. apply sw1_sim. intros. eapply sshr_rep; eauto.
  - apply sw2_sim. intros. eapply sxor_rep; eauto.
  - apply sw2_sim. intros. eapply sand_rep; eauto.
  - apply sw2_sim. intros. eapply sor_rep; eauto.
  - apply sw2_sim. intros. eapply sadd_rep; eauto.
Qed.
End SimSym.
