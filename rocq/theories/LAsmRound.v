(** * Comparing a symbolic run with the portable Keccak round *)
From Coq Require Import NArith Arith List Bool Lia ZifyBool ZifyNat ZifyN ZArith.
From Verif Require Import SpecStream MKeccak MAsm LAsm.
Import ListNotations.
Ltac Zify.zify_post_hook ::= Z.div_mod_to_equations.

(** ** The portable round as expressions *)
Inductive expr := EV (i : nat) | EC (n : N) | EX (a b : expr) | EA (a b : expr) | EN (a : expr) | ER (k : N) (a : expr).
Fixpoint ev (st : list N) (e : expr) : N :=
  match e with
  | EV i => nth i st 0%N
  | EC n => n
  | EX a b => N.lxor (ev st a) (ev st b)
  | EA a b => N.land (ev st a) (ev st b)
  | EN a => not64 (ev st a)
  | ER k a => rotl 64 k (ev st a)
  end.
Fixpoint sym (e : expr) : option sw :=
  match e with
  | EV i => Some (svar (N.of_nat i))
  | EC n => if (n <? 2 ^ 64)%N then Some (sconst n) else None
  | EX a b => bind (sym a) (fun s => bind (sym b) (sxor s))
  | EA a b => bind (sym a) (fun s => bind (sym b) (sand s))
  | EN a => bind (sym a) snot
  | ER k a => bind (sym a) (srol k)
  end.

Local Open Scope N_scope.
Definition round_exprs (c : N) : list expr :=
  let A := EV in
  let rotl := ER in
  let xor := EX in
  let C0 := xor (xor (xor (xor (A 0%nat) (A 5%nat)) (A 10%nat)) (A 15%nat)) (A 20%nat) in
  let C1 := xor (xor (xor (xor (A 1%nat) (A 6%nat)) (A 11%nat)) (A 16%nat)) (A 21%nat) in
  let C2 := xor (xor (xor (xor (A 2%nat) (A 7%nat)) (A 12%nat)) (A 17%nat)) (A 22%nat) in
  let C3 := xor (xor (xor (xor (A 3%nat) (A 8%nat)) (A 13%nat)) (A 18%nat)) (A 23%nat) in
  let C4 := xor (xor (xor (xor (A 4%nat) (A 9%nat)) (A 14%nat)) (A 19%nat)) (A 24%nat) in
  let D0 := xor (rotl 1 C0) C3 in
  let D1 := xor (rotl 1 C1) C4 in
  let D2 := xor (rotl 1 C2) C0 in
  let D3 := xor (rotl 1 C3) C1 in
  let D4 := xor (rotl 1 C4) C2 in
  let B00 := xor (A 0%nat) D1 in
  let B10 := rotl 1 (xor (A 1%nat) D2) in
  let B20 := rotl 62 (xor (A 2%nat) D3) in
  let B05 := rotl 28 (xor (A 3%nat) D4) in
  let B15 := rotl 27 (xor (A 4%nat) D0) in
  let B16 := rotl 36 (xor (A 5%nat) D1) in
  let B01 := rotl 44 (xor (A 6%nat) D2) in
  let B11 := rotl 6 (xor (A 7%nat) D3) in
  let B21 := rotl 55 (xor (A 8%nat) D4) in
  let B06 := rotl 20 (xor (A 9%nat) D0) in
  let B07 := rotl 3 (xor (A 10%nat) D1) in
  let B17 := rotl 10 (xor (A 11%nat) D2) in
  let B02 := rotl 43 (xor (A 12%nat) D3) in
  let B12 := rotl 25 (xor (A 13%nat) D4) in
  let B22 := rotl 39 (xor (A 14%nat) D0) in
  let B23 := rotl 41 (xor (A 15%nat) D1) in
  let B08 := rotl 45 (xor (A 16%nat) D2) in
  let B18 := rotl 15 (xor (A 17%nat) D3) in
  let B03 := rotl 21 (xor (A 18%nat) D4) in
  let B13 := rotl 8 (xor (A 19%nat) D0) in
  let B14 := rotl 18 (xor (A 20%nat) D1) in
  let B24 := rotl 2 (xor (A 21%nat) D2) in
  let B09 := rotl 61 (xor (A 22%nat) D3) in
  let B19 := rotl 56 (xor (A 23%nat) D4) in
  let B04 := rotl 14 (xor (A 24%nat) D0) in
  let chi x y z := xor x (EA (EN y) z) in
  [ xor (chi B00 B01 B02) (EC c);
    chi B01 B02 B03;
    chi B02 B03 B04;
    chi B03 B04 B00;
    chi B04 B00 B01;
    chi B05 B06 B07;
    chi B06 B07 B08;
    chi B07 B08 B09;
    chi B08 B09 B05;
    chi B09 B05 B06;
    chi B10 B11 B12;
    chi B11 B12 B13;
    chi B12 B13 B14;
    chi B13 B14 B10;
    chi B14 B10 B11;
    chi B15 B16 B17;
    chi B16 B17 B18;
    chi B17 B18 B19;
    chi B18 B19 B15;
    chi B19 B15 B16;
    chi B20 B21 B22;
    chi B21 B22 B23;
    chi B22 B23 B24;
    chi B23 B24 B20;
    chi B24 B20 B21 ].

Lemma round_exprs_ev st c : map (ev st) (round_exprs c) = keccak_round st c.
Proof. reflexivity. Qed.

Definition word_env (st : list N) : N -> N := fun v => nth (N.to_nat v) st 0.

Lemma sym_rep st e s : Forall (fun w => w < 2 ^ 64) st -> sym e = Some s -> rep (word_env st) s (ev st e).
Proof.
  intros Hst.
  assert (Henv : forall v, word_env st v < 2 ^ 64).
  { intros v. unfold word_env. destruct (Nat.lt_ge_cases (N.to_nat v) (length st)).
    - rewrite Forall_forall in Hst. apply Hst. now apply nth_In.
    - rewrite nth_overflow by auto. reflexivity. }
  revert s. induction e; intros s; cbn [sym ev].
  - intros [= <-]. pose proof (svar_rep (word_env st) Henv (N.of_nat i)) as H. unfold word_env in H at 2.
    now rewrite Nat2N.id in H.
  - destruct (n <? 2 ^ 64) eqn:E; [|discriminate]. intros [= <-]. apply sconst_rep'; auto. now apply N.ltb_lt.
  - destruct (sym e1) as [s1|]; [|discriminate]. destruct (sym e2) as [s2|]; [|discriminate]. cbn.
    intros H. eapply sxor_rep; eauto.
  - destruct (sym e1) as [s1|]; [|discriminate]. destruct (sym e2) as [s2|]; [|discriminate]. cbn.
    intros H. eapply sand_rep; eauto.
  - destruct (sym e) as [s1|]; [|discriminate]. cbn. intros H. eapply snot_rep; eauto.
  - destruct (sym e) as [s1|]; [|discriminate]. cbn. intros H. eapply srol_rep; eauto.
Qed.

(** ** Expected values: [None] is anything *)
Inductive pat := Any | Val (s : sval) | Exp (e : expr).

Definition sval_eqb (x y : sval) : bool :=
  match x, y with
  | SW s, SW t => sw_eqb s t
  | SP o z, SP o' z' => Nat.eqb o o' && Z.eqb z z'
  | SO k, SO k' => k =? k'
  | _, _ => false
  end.
Definition pmatch (p : pat) (x : sval) : bool :=
  match p with
  | Any => true
  | Val s => sval_eqb s x
  | Exp e => match sym e, x with Some t, SW s => sw_eqb s t | _, _ => false end
  end.
Fixpoint pmatches (ps : list pat) (xs : list sval) : bool :=
  match ps, xs with
  | [], [] => true
  | p :: ps, x :: xs => pmatch p x && pmatches ps xs
  | _, _ => false
  end.
Fixpoint pmatchess (ps : list (list pat)) (xs : list (list sval)) : bool :=
  match ps, xs with
  | [], [] => true
  | p :: ps, x :: xs => pmatches p x && pmatchess ps xs
  | _, _ => false
  end.
Definition check (regs' : list pat) (vregs' objects' : list (list pat)) (o : option (machine symbolic)) : bool :=
  match o with
  | Some m => pmatches regs' (regs symbolic m) && pmatchess vregs' (vregs symbolic m) && pmatchess objects' (objects symbolic m)
  | None => false
  end.

Section Check.
Context (st : list N) (oenv : N -> cval) (Hst : Forall (fun w => w < 2 ^ 64) st).

Definition holds (p : pat) (y : cval) : Prop :=
  match p with
  | Any => True
  | Val s => rel (word_env st) oenv s y
  | Exp e => y = CW (ev st e)
  end.

Lemma env_lt v : word_env st v < 2 ^ 64.
Proof.
  unfold word_env. destruct (Nat.lt_ge_cases (N.to_nat v) (length st)).
  - rewrite Forall_forall in Hst. apply Hst. now apply nth_In.
  - rewrite nth_overflow by auto. reflexivity.
Qed.

Lemma sw_eqb_sym_bit s t j : sw_eqb s t = true -> sw_bit (word_env st) t j = sw_bit (word_env st) s j.
Proof. intros. symmetry. now apply sw_eqb_bit. Qed.

Lemma pmatch_holds p x y : pmatch p x = true -> rel (word_env st) oenv x y -> holds p y.
Proof.
  destruct p as [|s|e]; cbn [pmatch holds]; auto.
  - destruct s as [s | o z | k], x as [t | o' z' | k']; cbn [sval_eqb]; try discriminate.
    + intros E. destruct y as [w|]; cbn; auto. intros [H1 H2]. split; auto. intros j Hj.
      rewrite H2 by auto. now apply sw_eqb_sym_bit.
    + intros E. apply andb_prop in E as [E1 E2]. apply Nat.eqb_eq in E1. apply Z.eqb_eq in E2. now subst.
    + intros E. apply N.eqb_eq in E. now subst.
  - destruct (sym e) as [t|] eqn:Es; [|discriminate]. destruct x as [s | |]; try discriminate.
    intros E. destruct y as [w|]; cbn; [|contradiction]. intros H.
    apply (sw_eqb_rep (word_env st) _ _ _ E) in H. f_equal.
    apply (rep_unique (word_env st) env_lt t); auto. now apply sym_rep.
Qed.
Lemma pmatches_holds ps xs ys : pmatches ps xs = true -> Forall2 (rel (word_env st) oenv) xs ys -> Forall2 holds ps ys.
Proof.
  intros H F. revert ps H. induction F as [|x y xs ys H1 H2 IH]; intros [|p ps]; cbn; try discriminate; auto.
  intros E. apply andb_prop in E as [E1 E2]. constructor; eauto using pmatch_holds.
Qed.
Lemma pmatchess_holds ps xs ys : pmatchess ps xs = true -> Forall2 (Forall2 (rel (word_env st) oenv)) xs ys -> Forall2 (Forall2 holds) ps ys.
Proof.
  intros H F. revert ps H. induction F as [|x y xs ys H1 H2 IH]; intros [|p ps]; cbn; try discriminate; auto.
  intros E. apply andb_prop in E as [E1 E2]. constructor; eauto using pmatches_holds.
Qed.

(** A run whose symbolic counterpart passes the check. *)
Lemma check_run p m n pr pv po :
  check pr pv po (run symbolic s_cnt p m) = true ->
  Forall2 (rel (word_env st) oenv) (regs symbolic m) (regs concrete n) ->
  Forall2 (Forall2 (rel (word_env st) oenv)) (vregs symbolic m) (vregs concrete n) ->
  Forall2 (Forall2 (rel (word_env st) oenv)) (objects symbolic m) (objects concrete n) ->
  exists rs' vs' os', c_run p n = Some (c_state rs' vs' os') /\
    Forall2 holds pr rs' /\ Forall2 (Forall2 holds) pv vs' /\ Forall2 (Forall2 holds) po os'.
Proof.
  intros C H1 H2 H3.
  pose proof (sim_run symbolic concrete s_cnt c_count _ (symbolic_simulates (word_env st) oenv env_lt) p m n) as S.
  destruct (run symbolic s_cnt p m) as [m'|]; [|discriminate].
  cbn [opt_sim] in S. destruct S as ([rs' vs' os'] & E & (S1 & S2 & S3)); [repeat split; assumption|].
  exists rs', vs', os'. split; [exact E|].
  cbn [check] in C. apply andb_prop in C as [C C3]. apply andb_prop in C as [C1 C2].
  repeat split; [eapply pmatches_holds | eapply pmatchess_holds | eapply pmatchess_holds]; eassumption.
Qed.
End Check.

(** ** Building related states *)
(** Opaque values a, a+1, ... *)
Definition opaques (a : N) (n : nat) : list sval := map (fun k => SO (a + N.of_nat k)) (seq 0 n).
Definition obj_env (l : list cval) : N -> cval := fun k => nth (N.to_nat k) l (CW 0).

Lemma opaques_rel env pre l post :
  Forall2 (rel env (obj_env (pre ++ l ++ post))) (opaques (N.of_nat (length pre)) (length l)) l.
Proof.
  unfold opaques. revert pre. induction l as [|x l IH]; intros pre; cbn [length seq map]; constructor.
  - cbn [rel]. unfold obj_env. rewrite N.add_0_r, Nat2N.id. rewrite app_nth2 by lia. now rewrite Nat.sub_diag.
  - specialize (IH (pre ++ [x])). rewrite <- app_assoc in IH. cbn [app] in IH.
    rewrite app_length in IH. cbn [length] in IH. rewrite <- seq_shift, map_map.
    erewrite map_ext; [exact IH|]. intros k. cbn beta. f_equal. lia.
Qed.

Definition svars (a : N) (n : nat) : list sval := map (fun k => SW (svar (a + N.of_nat k))) (seq 0 n).
Lemma svars_rel env oenv a l : (forall v, env v < 2 ^ 64) ->
  (forall k, (k < length l)%nat -> env (a + N.of_nat k) = nth k l 0) ->
  Forall2 (rel env oenv) (svars a (length l)) (map CW l).
Proof.
  intros Henv. unfold svars. revert a. induction l as [|x l IH]; intros a H; cbn [length seq map]; constructor.
  - cbn [rel]. pose proof (H 0%nat ltac:(cbn; lia)) as E. cbn [nth] in E. change (N.of_nat 0) with 0 in *. rewrite <- E.
    apply svar_rep; auto.
  - rewrite <- seq_shift, map_map. specialize (IH (a + 1)). erewrite map_ext; [apply IH|].
    + intros k Hk. specialize (H (S k) ltac:(cbn; lia)). cbn [nth] in H. rewrite <- H. f_equal. lia.
    + intros k. cbn beta. do 2 f_equal. lia.
Qed.
Lemma consts_rel env oenv l : (forall v, env v < 2 ^ 64) -> Forall (fun w => w < 2 ^ 64) l ->
  Forall2 (rel env oenv) (map (fun n => SW (sconst n)) l) (map CW l).
Proof.
  intros Henv H. induction H as [|x l H1 H2 IH]; cbn; constructor; auto. cbn. now apply sconst_rep'.
Qed.

Lemma holds_exps st oenv es l : Forall2 (holds st oenv) (map Exp es) l -> l = map CW (map (ev st) es).
Proof.
  revert l. induction es as [|e es IH]; intros l H; inversion H; subst; [reflexivity|]. cbn [map].
  cbn [holds] in *. subst. f_equal. now apply IH.
Qed.
Lemma holds_len st oenv ps l : Forall2 (holds st oenv) ps l -> length l = length ps.
Proof. induction 1; cbn; auto. Qed.

Lemma fits_lt st : Forall (fits 64) st -> Forall (fun w => w < 2 ^ 64) st.
Proof. apply Forall_impl. intros a H. exact H. Qed.

Lemma F2_app_inv {X Y} (P : X -> Y -> Prop) a b l : Forall2 P (a ++ b) l ->
  exists l1 l2, l = l1 ++ l2 /\ Forall2 P a l1 /\ Forall2 P b l2.
Proof. intros H. apply Forall2_app_inv_l in H as (l1 & l2 & H1 & H2 & ->). eauto. Qed.
Lemma F2_cons_inv {X Y} (P : X -> Y -> Prop) a b l : Forall2 P (a :: b) l ->
  exists x l2, l = x :: l2 /\ P a x /\ Forall2 P b l2.
Proof. intros H. inversion H; subst. eauto. Qed.
Lemma F2_nil_inv {X Y} (P : X -> Y -> Prop) l : Forall2 P [] l -> l = [].
Proof. intros H. now inversion H. Qed.

Lemma val_const st oenv n y : n < 2 ^ 64 -> Forall (fun w => w < 2 ^ 64) st ->
  holds st oenv (Val (SW (sconst n))) y -> y = CW n.
Proof.
  intros Hn Hst. cbn [holds rel]. destruct y as [w|]; [|contradiction]. intros H. f_equal.
  eapply rep_unique; [apply (env_lt st Hst) | eassumption |]. apply sconst_rep'; auto. now apply env_lt.
Qed.
Lemma val_consts st oenv l r : Forall (fun w => w < 2 ^ 64) l -> Forall (fun w => w < 2 ^ 64) st ->
  Forall2 (holds st oenv) (map Val (map (fun n => SW (sconst n)) l)) r -> r = map CW l.
Proof.
  intros Hl Hst. revert r. induction Hl as [|x l H1 H2 IH]; intros r H; cbn [map] in H.
  - apply F2_nil_inv in H. now subst.
  - apply F2_cons_inv in H as (y & r' & -> & Hy & Hr). cbn [map]. f_equal; [|now apply IH].
    now apply val_const in Hy.
Qed.
Lemma holds_opaques st oenv a n l l' : Forall2 (holds st oenv) (map Val (opaques a n)) l' ->
  Forall2 (rel (word_env st) oenv) (opaques a n) l -> l' = l.
Proof.
  unfold opaques. generalize 0%nat. intros b. revert b l l'. induction n as [|n IH]; intros b l l'; cbn [seq map]; intros H H'.
  - apply F2_nil_inv in H, H'. now subst.
  - apply F2_cons_inv in H as (y & r' & -> & Hy & Hr). apply F2_cons_inv in H' as (y' & r & -> & Hy' & Hr').
    cbn [holds rel] in *. subst. f_equal. eapply IH; eassumption.
Qed.
Fixpoint cptrs (l : list (nat * Z)) : list cval := match l with [] => [] | (o, z) :: l => CP o z :: cptrs l end.
Fixpoint sptrs (l : list (nat * Z)) : list sval := match l with [] => [] | (o, z) :: l => SP o z :: sptrs l end.
Lemma holds_ptrs' st oenv l r : Forall2 (holds st oenv) (map Val (sptrs l)) r -> r = cptrs l.
Proof.
  revert r. induction l as [|[o z] l IH]; cbn [sptrs cptrs map]; intros r H.
  - now apply F2_nil_inv in H.
  - apply F2_cons_inv in H as (y & r' & -> & Hy & Hr). cbn [holds rel] in Hy. destruct y as [|o' z']; [contradiction|].
    destruct Hy as [<- <-]. f_equal. now apply IH.
Qed.
Lemma F2_length {X Y} (P : X -> Y -> Prop) a l : Forall2 P a l -> length l = length a.
Proof. induction 1; cbn; auto. Qed.
