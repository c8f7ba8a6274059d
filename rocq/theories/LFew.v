(** Few field elements map to one point: proofs. *)
From Coq Require Import ZArith Arith List Bool Lia Ring.
From Verif Require Import SpecPoseidon SpecH2C.
Import ListNotations.

(** ** Fibres *)
Lemma fibres {A B} (dec : forall a b : B, {a = b} + {a <> b}) (f : A -> B) n : forall vs us,
  NoDup us -> (forall u, In u us -> In (f u) vs) ->
  (forall v l, NoDup l -> incl l us -> (forall u, In u l -> f u = v) -> length l <= n) -> length us <= n * length vs.
Proof.
  induction vs as [|v vs IH]; intros us ND Hin Hf.
  - destruct us as [|u us]; [cbn; lia|]. destruct (Hin u (or_introl eq_refl)).
  - set (p := fun u => if dec (f u) v then true else false).
    assert (E : length us = length (filter p us) + length (filter (fun u => negb (p u)) us)).
    { clear. induction us as [|u us IH]; [reflexivity|]. cbn [filter]. destruct (p u); cbn [negb length]; lia. }
    assert (L1 : length (filter p us) <= n).
    { apply (Hf v); [now apply NoDup_filter|intros u Hu; now apply filter_In in Hu|]. intros u Hu. apply filter_In in Hu. destruct Hu as [_ Hu].
      unfold p in Hu. now destruct (dec (f u) v). }
    assert (L2 : length (filter (fun u => negb (p u)) us) <= n * length vs).
    { apply IH; [now apply NoDup_filter| |].
      - intros u Hu. apply filter_In in Hu. destruct Hu as [Hu Hp]. destruct (Hin u Hu) as [K|K]; [|exact K].
        unfold p in Hp. destruct (dec (f u) v); [discriminate|]. congruence.
      - intros v' l Nl Il Fl. apply (Hf v'); auto. intros u Hu. specialize (Il u Hu). now apply filter_In in Il. }
    cbn [length]. lia.
Qed.
Lemma split_by {A} (p : A -> bool) (us : list A) a b :
  (forall l, NoDup l -> (forall u, In u l -> In u us /\ p u = true) -> length l <= a) ->
  (forall l, NoDup l -> (forall u, In u l -> In u us /\ p u = false) -> length l <= b) -> NoDup us -> length us <= a + b.
Proof.
  intros Ha Hb ND.
  assert (E : length us = length (filter p us) + length (filter (fun u => negb (p u)) us)).
  { clear. induction us as [|u us IH]; [reflexivity|]. cbn [filter]. destruct (p u); cbn [negb length]; lia. }
  assert (L1 : length (filter p us) <= a) by (apply Ha; [now apply NoDup_filter|intros u Hu; now apply filter_In in Hu]).
  assert (L2 : length (filter (fun u => negb (p u)) us) <= b).
  { apply Hb; [now apply NoDup_filter|]. intros u Hu. apply filter_In in Hu. destruct (p u); cbn in Hu; intuition congruence. }
  lia.
Qed.
Lemma NoDup_map_in {A B} (f : A -> B) l : NoDup l -> (forall a b, In a l -> In b l -> f a = f b -> a = b) -> NoDup (map f l).
Proof.
  induction 1 as [|a l NI ND IH]; intros H; [constructor|]. cbn [map]. constructor.
  - rewrite in_map_iff. intros (b & E & Hb). apply NI. rewrite <- (H b a); auto; [now right|now left].
  - apply IH. intros x y Hx Hy. apply H; now right.
Qed.

Section F.
Context {F : ring} (HR : is_ring F).
Lemma rtF : ring_theory (@zero F) one add mul sub opp eq. Proof. exact HR. Qed.
Add Ring Fring : rtF.
Context (inv : F -> F) (HI : inverse_of_field inv) (NE : @one F <> zero) (D : forall a b : F, {a = b} + {a <> b}).
Lemma inv_r x : x <> zero -> mul x (inv x) = one. Proof. apply HI. Qed.
Lemma integral (a b : F) : mul a b = zero -> a = zero \/ b = zero.
Proof.
  intros E. destruct (D a zero) as [Z|Z]; [now left|right]. transitivity (mul (mul a (inv a)) b); [rewrite inv_r by exact Z; ring|].
  transitivity (mul (inv a) (mul a b)); [ring|]. rewrite E. ring.
Qed.
Lemma sub_0 (a b : F) : sub a b = zero -> a = b.
Proof. intros E. transitivity (add (sub a b) b); [ring|]. rewrite E. ring. Qed.

(** ** Polynomial functions: monic of a degree, and of degree below a bound *)
Fixpoint monic (n : nat) (f : F -> F) : Prop :=
  match n with O => forall x, f x = one | S n' => exists a g, monic n' g /\ forall x, f x = add a (mul x (g x)) end.
Fixpoint below (n : nat) (f : F -> F) : Prop :=
  match n with O => forall x, f x = zero | S n' => exists a g, below n' g /\ forall x, f x = add a (mul x (g x)) end.
Lemma monic_ext n f g : (forall x, f x = g x) -> monic n f -> monic n g.
Proof. intros E. destruct n; cbn [monic]; [intros H x; now rewrite <- E|]. intros (a & h & H & K). exists a, h. split; auto. intros x. now rewrite <- E. Qed.
Lemma below_zero n : below n (fun _ => zero).
Proof. induction n; cbn [below]; [reflexivity|]. exists zero, (fun _ => zero). split; auto. intros. ring. Qed.
Lemma below_const n a : below (S n) (fun _ => a).
Proof. exists a, (fun _ => zero). split; [apply below_zero|]. intros. ring. Qed.
Lemma below_add n : forall f g, below n f -> below n g -> below n (fun x => add (f x) (g x)).
Proof.
  induction n as [|n IH]; cbn [below]; intros f g; [intros H K x; rewrite H, K; ring|].
  intros (a & h & H & E) (b & k & K & E'). exists (add a b), (fun x => add (h x) (k x)). split; [now apply IH|]. intros x. rewrite E, E'. ring.
Qed.
Lemma below_scale n c : forall f, below n f -> below n (fun x => mul c (f x)).
Proof.
  induction n as [|n IH]; cbn [below]; intros f; [intros H x; rewrite H; ring|].
  intros (a & h & H & E). exists (mul c a), (fun x => mul c (h x)). split; [now apply IH|]. intros x. rewrite E. ring.
Qed.
Lemma below_S n : forall f, below n f -> below (S n) f.
Proof.
  induction n as [|n IH]; intros f H; [exists zero, (fun _ => zero); split; [now intros|]; intros x; rewrite H; ring|].
  destruct H as (a & h & H & E). exists a, h. split; auto.
Qed.
Lemma below_x n f : below n f -> below (S n) (fun x => mul x (f x)).
Proof. intros H. exists zero, f. split; auto. intros. ring. Qed.
Lemma below_lin n f u v : below n f -> below (S n) (fun x => mul (add u (mul v x)) (f x)).
Proof.
  intros H. pose proof (below_add (S n) _ _ (below_S n _ (below_scale n u f H)) (below_x n _ (below_scale n v f H))) as K.
  destruct K as (a & h & K & E). exists a, h. split; auto. intros x. rewrite <- E. ring.
Qed.
Lemma below_monic n : forall f, monic n f -> below (S n) f.
Proof.
  induction n as [|n IH]; intros f H; [exists one, (fun _ => zero); split; [now intros|]; intros x; rewrite H; ring|].
  destruct H as (a & h & H & E). exists a, h. split; auto.
Qed.
Lemma monic_below n : forall f g, monic n f -> below n g -> monic n (fun x => add (f x) (g x)).
Proof.
  induction n as [|n IH]; cbn [below monic]; intros f g; [intros H K x; rewrite H, K; ring|].
  intros (a & h & H & E) (b & k & K & E'). exists (add a b), (fun x => add (h x) (k x)). split; [now apply IH|]. intros x. rewrite E, E'. ring.
Qed.
Lemma monic_lin n k f : monic n f -> monic (S n) (fun x => mul (sub x k) (f x)).
Proof.
  intros H. assert (M : monic (S n) (fun x => mul x (f x))) by (exists zero, f; split; [exact H|]; intros; ring).
  pose proof (monic_below (S n) _ _ M (below_scale (S n) (opp k) _ (below_monic n _ H))) as K.
  refine (monic_ext (S n) _ _ _ K). intros x. cbn beta. ring.
Qed.
Lemma divide n : forall f a, monic (S n) f -> exists g, monic n g /\ forall x, f x = add (f a) (mul (sub x a) (g x)).
Proof.
  induction n as [|n IH]; intros f a (c & h & H & E).
  - exists h. split; auto. intros x. rewrite !E. cbn [monic] in H. rewrite !H. ring.
  - destruct (IH h a H) as (k & K & Ek). exists (fun x => add (h a) (mul x (k x))). split; [exists (h a), k; split; auto|].
    intros x. rewrite !E, (Ek x). ring.
Qed.
Lemma roots n : forall f l, monic n f -> NoDup l -> (forall x, In x l -> f x = zero) -> length l <= n.
Proof.
  induction n as [|n IH]; intros f [|a l] M ND H; cbn [length]; try lia.
  - exfalso. apply NE. rewrite <- (M a). apply H. now left.
  - destruct (divide n f a M) as (g & Mg & E). inversion ND as [|? ? NI ND']; subst. apply le_n_S, (IH g); auto.
    intros x Hx. pose proof (H x (or_intror Hx)) as Zx. rewrite E, (H a (or_introl eq_refl)) in Zx.
    assert (Z : mul (sub x a) (g x) = zero) by (rewrite <- Zx; ring).
    destruct (integral _ _ Z) as [K|K]; [|exact K]. apply sub_0 in K. congruence.
Qed.

(** ** The simplified SWU map *)
Section Swu.
Context (A B Z : F) (sgn : F -> bool).
Context (NB : B <> zero) (NZ : Z <> zero) (Sgn : forall y : F, y <> zero -> sgn (opp y) = negb (sgn y)).
Definition tt (u : F) : F := mul Z (mul u u).
Lemma tt_inj u v : sgn u = sgn v -> tt u = tt v -> u = v.
Proof.
  intros S E. unfold tt in E. assert (P : mul Z (mul (sub u v) (add u v)) = zero).
  { transitivity (sub (mul Z (mul u u)) (mul Z (mul v v))); [ring|]. rewrite E. ring. }
  destruct (integral _ _ P) as [K|K]; [contradiction|]. destruct (integral _ _ K) as [Q|Q]; [now apply sub_0|].
  assert (Ev : u = opp v) by (transitivity (sub (add u v) v); [ring|rewrite Q; ring]).
  destruct (D v zero) as [Zv|Zv]; [rewrite Ev, Zv; ring|]. pose proof (Sgn v Zv) as K'. rewrite <- Ev, S in K'. now destruct (sgn v).
Qed.
Lemma by_t n f s us : monic n f -> NoDup us -> (forall u, In u us -> sgn u = s /\ f (tt u) = zero) -> length us <= n.
Proof.
  intros M ND H. rewrite <- (map_length tt). apply (roots n f); auto.
  - apply NoDup_map_in; auto. intros a b Ha Hb. apply tt_inj. destruct (H a Ha) as [-> _]. now destruct (H b Hb) as [-> _].
  - intros x Hx. apply in_map_iff in Hx. destruct Hx as (u & <- & Hu). now apply H.
Qed.
Lemma monic2 b c : monic 2 (fun t => add c (mul t (add b t))).
Proof. exists c, (fun t => add b t). split; [|reflexivity]. exists b, (fun _ => one). split; [intros t; reflexivity|]. intros. ring. Qed.
(** x1 determines t^2 + t, and t x1 leaves a quadratic equation for t. *)
Theorem swu_fibre X Y us : NoDup us -> (forall u, In u us -> sswu A B Z sgn u X Y) -> length us <= 6.
Proof.
  intros ND H. set (dd := fun u => add (mul (tt u) (tt u)) (tt u)).
  change 6 with (2 + 4). apply (split_by (fun u => if D (dd u) zero then true else false)); auto.
  - intros l Nl Hl. apply (by_t 2 (fun t => add zero (mul t (add one t))) (sgn Y)); auto; [apply monic2|].
    intros u Hu. destruct (Hl u Hu) as [Iu E]. destruct (H u Iu) as (x1 & _ & _ & _ & _ & _ & S). split; [now symmetry|].
    destruct (D (dd u) zero) as [Zd|]; [|discriminate]. transitivity (dd u); [unfold dd; ring|exact Zd].
  - intros l Nl Hl. change 4 with (2 + 2).
    assert (HL : forall u, In u l -> sgn u = sgn Y /\ dd u <> zero /\ exists x1, mul (mul A x1) (dd u) = opp (mul B (add (dd u) one)) /\
      (square (rhs A B x1) -> X = x1) /\ (~ square (rhs A B x1) -> X = mul (tt u) x1)).
    { intros u Hu. destruct (Hl u Hu) as [Iu E]. destruct (D (dd u) zero) as [|Zd]; [discriminate|].
      destruct (H u Iu) as (x1 & _ & K1 & K2 & K3 & _ & S). split; [now symmetry|]. split; auto. exists x1. auto. }
    set (c1 := add (mul A X) B).
    apply (split_by (fun u => if D (mul (dd u) c1) (opp B) then true else false)); auto.
    + intros l' N' Hl'. apply (by_t 2 (fun t => add (mul B (inv c1)) (mul t (add one t))) (sgn Y)); auto; [apply monic2|].
      intros u Hu. destruct (Hl' u Hu) as [Iu E]. destruct (HL u Iu) as (S & _). split; auto. destruct (D (mul (dd u) c1) (opp B)) as [Ed|]; [|discriminate].
      assert (Nc : c1 <> zero). { intros Zc. rewrite Zc in Ed. apply NB. transitivity (opp (opp B)); [ring|]. rewrite <- Ed. ring. }
      transitivity (add (mul B (inv c1)) (dd u)); [unfold dd; ring|].
      transitivity (add (mul B (inv c1)) (mul (mul (dd u) c1) (inv c1))).
      { transitivity (add (mul B (inv c1)) (mul (dd u) (mul c1 (inv c1)))); [rewrite inv_r by exact Nc; ring|ring]. }
      rewrite Ed. ring.
    + intros l' N' Hl'. set (e := mul (mul A X) (inv B)).
      apply (by_t 2 (fun t => add (add one e) (mul t (add (add one e) t))) (sgn Y)); auto; [apply monic2|].
      intros u Hu. destruct (Hl' u Hu) as [Iu E]. destruct (HL u Iu) as (S & Nd & x1 & K1 & K2 & K3). split; auto.
      destruct (D (mul (dd u) c1) (opp B)) as [|Nd']; [discriminate|].
      assert (NS : X = mul (tt u) x1).
      { apply K3. intros Q. apply Nd'. rewrite <- (K2 Q) in K1. unfold c1.
        transitivity (add (mul (mul A X) (dd u)) (mul B (dd u))); [ring|]. rewrite K1. ring. }
      assert (Nt : tt u <> zero). { intros Zt. apply Nd. unfold dd. rewrite Zt. ring. }
      (* A X (t + 1) = - B (d + 1) *)
      assert (Q : mul (mul A X) (add (tt u) one) = opp (mul B (add (dd u) one))).
      { rewrite NS, <- K1. unfold dd. ring. }
      unfold e. transitivity (mul (inv B) (add (mul (mul A X) (add (tt u) one)) (mul B (add (dd u) one)))).
      { transitivity (add (mul (mul (mul A X) (inv B)) (add (tt u) one)) (mul (mul B (inv B)) (add (dd u) one))); [rewrite inv_r by exact NB; unfold dd; ring|ring]. }
      rewrite Q. ring.
Qed.

(** ** The isogeny *)
Lemma velu_poly ks x' : exists P Q, monic (2 * length ks + 1) P /\ monic (2 * length ks) Q /\
  forall X, ~ In X ks -> P X = mul (Q X) (sub (velu_x inv A B ks X) x').
Proof.
  induction ks as [|k ks (P & Q & MP & MQ & E)].
  - exists (fun X => sub X x'), (fun _ => one). cbn [length]. split; [|split; [intros x; reflexivity|]].
    + exists (opp x'), (fun _ => one). split; [intros x; reflexivity|]. intros. ring.
    + intros X _. cbn [velu_x]. ring.
  - set (v := velu_v A k). set (u := velu_u A B k). cbn [length].
    replace (2 * S (length ks) + 1) with (S (S (2 * length ks + 1))) by lia. replace (2 * S (length ks)) with (S (S (2 * length ks))) by lia.
    exists (fun X => add (mul (sub X k) (mul (sub X k) (P X))) (mul (add (sub u (mul v k)) (mul v X)) (Q X))), (fun X => mul (sub X k) (mul (sub X k) (Q X))).
    split; [|split].
    + apply (monic_below (S (S (2 * length ks + 1)))); [apply monic_lin, monic_lin, MP|].
      replace (S (S (2 * length ks + 1))) with (S (S (S (2 * length ks)))) by lia. apply below_S. apply below_lin, below_monic, MQ.
    + apply monic_lin, monic_lin, MQ.
    + intros X NX. cbn [velu_x]. fold v u. set (i := inv (sub X k)).
      assert (Ei : mul (sub X k) i = one). { apply inv_r. intros K. apply NX. left. symmetry. now apply sub_0. }
      rewrite E by (intros K; apply NX; now right). set (w := velu_x inv A B ks X).
      transitivity (add (mul (mul (sub X k) (mul (sub X k) (Q X))) (sub w x'))
        (mul (Q X) (add (mul v (mul (sub X k) (mul (sub X k) i))) (mul u (mul (mul (sub X k) i) (mul (sub X k) i)))))); [rewrite Ei; ring|ring].
Qed.

Context (XY : F -> F * F) (HXY : forall u, sswu A B Z sgn u (fst (XY u)) (snd (XY u))) (NR : forall x, rhs A B x <> zero).
Context (ks : list F) (c c' x y : F).
Lemma y_of_sgn u v : fst (XY u) = fst (XY v) -> sgn u = sgn v -> snd (XY u) = snd (XY v).
Proof.
  intros E S. destruct (HXY u) as (? & _ & _ & _ & _ & Cu & Su). destruct (HXY v) as (? & _ & _ & _ & _ & Cv & Sv). unfold on_curve in Cu, Cv.
  set (a := snd (XY u)) in *. set (b := snd (XY v)) in *. assert (P : mul (sub a b) (add a b) = zero).
  { transitivity (sub (mul a a) (mul b b)); [ring|]. rewrite Cu, Cv, E. ring. }
  destruct (integral _ _ P) as [K|K]; [now apply sub_0|]. exfalso.
  assert (Eb : a = opp b) by (transitivity (sub (add a b) b); [ring|rewrite K; ring]).
  assert (Nb : b <> zero). { intros Zb. apply (NR (fst (XY v))). rewrite <- Cv, Zb. ring. }
  pose proof (Sgn b Nb) as Q. rewrite <- Eb in Q. rewrite Su, Sv, S in Q. now destruct (sgn v).
Qed.
Lemma fibre_X us : NoDup us -> (forall u v, In u us -> In v us -> fst (XY u) = fst (XY v) /\ snd (XY u) = snd (XY v)) -> length us <= 6.
Proof.
  intros ND H. destruct us as [|u0 us]; [cbn; lia|]. apply (swu_fibre (fst (XY u0)) (snd (XY u0))); auto.
  intros u Hu. destruct (H u0 u (or_introl eq_refl) Hu) as [-> ->]. apply HXY.
Qed.
Theorem few_off us : c <> zero -> y <> zero -> NoDup us ->
  (forall u, In u us -> ~ In (fst (XY u)) ks /\ mul (velu_x inv A B ks (fst (XY u))) c = x /\ mul (velu_y inv A B ks (fst (XY u)) (snd (XY u))) c' = y) ->
  length us <= 6 * (2 * length ks + 1).
Proof.
  intros Nc Ny ND H. transitivity (6 * length (nodup D (map (fun u => fst (XY u)) us))).
  - apply (fibres D (fun u => fst (XY u))); auto.
    + intros u Hu. apply nodup_In, (in_map (fun u => fst (XY u))), Hu.
    + intros X l Nl Il Fl. apply fibre_X; auto. intros u v Hu Hv. split; [now rewrite (Fl u Hu), (Fl v Hv)|].
      destruct (H u (Il u Hu)) as (_ & _ & Yu). destruct (H v (Il v Hv)) as (_ & _ & Yv). rewrite (Fl u Hu) in Yu. rewrite (Fl v Hv) in Yv.
      unfold velu_y in Yu, Yv. set (e := velu_dx inv A B ks X) in *.
      assert (P : mul (sub (snd (XY u)) (snd (XY v))) (mul e c') = zero).
      { transitivity (sub (mul (mul (snd (XY u)) e) c') (mul (mul (snd (XY v)) e) c')); [ring|]. rewrite Yu, Yv. ring. }
      destruct (integral _ _ P) as [K|K]; [now apply sub_0|]. exfalso. apply Ny. rewrite <- Yu.
      transitivity (mul (snd (XY u)) (mul e c')); [ring|]. rewrite K. ring.
  - apply Nat.mul_le_mono_l. destruct (velu_poly ks (mul x (inv c))) as (P & Q & MP & MQ & E).
    apply (roots _ P); auto; [apply NoDup_nodup|]. intros X HX. apply nodup_In, in_map_iff in HX. destruct HX as (u & <- & Hu).
    destruct (H u Hu) as (Nk & Ex & _). rewrite (E _ Nk), <- Ex.
    transitivity (mul (Q (fst (XY u))) (sub (velu_x inv A B ks (fst (XY u))) (mul (velu_x inv A B ks (fst (XY u))) (mul c (inv c))))); [ring|].
    rewrite inv_r by exact Nc. ring.
Qed.
Theorem few_in us : NoDup us -> (forall u, In u us -> In (fst (XY u)) ks) -> length us <= 12 * length ks.
Proof.
  intros ND H. apply (fibres D (fun u => fst (XY u))); auto. intros X l Nl Il Fl. change 12 with (6 + 6). apply (split_by sgn); auto.
  - intros l' N' H'. apply fibre_X; auto. intros u v Hu Hv. destruct (H' u Hu) as [Lu Su]. destruct (H' v Hv) as [Lv Sv].
    assert (E : fst (XY u) = fst (XY v)) by now rewrite (Fl u Lu), (Fl v Lv). split; auto. apply y_of_sgn; congruence.
  - intros l' N' H'. apply fibre_X; auto. intros u v Hu Hv. destruct (H' u Hu) as [Lu Su]. destruct (H' v Hv) as [Lv Sv].
    assert (E : fst (XY u) = fst (XY v)) by now rewrite (Fl u Lu), (Fl v Lv). split; auto. apply y_of_sgn; congruence.
Qed.
End Swu.
End F.
