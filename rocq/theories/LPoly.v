(** Polynomials as lists of coefficients (the constant first) in a ring that computes, and their values in a field. *)
From Coq Require Import ZArith Arith List Bool Lia Ring.
From Verif Require Import SpecPoseidon SpecH2C LPoseidonBij.
Import ListNotations.

Definition Zring : ring := {| car := Z; zero := 0%Z; one := 1%Z; add := Z.add; mul := Z.mul; sub := Z.sub; opp := Z.opp |}.

Section Poly.
Context {R F : ring} (HR : is_ring F) (h : R -> F) (red : R -> R) (is0 : R -> bool).
Lemma rt : ring_theory (@zero F) one add mul sub opp eq. Proof. exact HR. Qed.
Add Ring Fring : rt.
Context (h0 : h zero = zero) (hadd : forall a b, h (add a b) = add (h a) (h b)) (hmul : forall a b, h (mul a b) = mul (h a) (h b))
  (hsub : forall a b, h (sub a b) = sub (h a) (h b)) (hred : forall a, h (red a) = h a) (his0 : forall a, is0 a = true -> h a = zero).
Fixpoint pev (p : list R) (x : F) : F := match p with [] => zero | c :: r => add (h c) (mul x (pev r x)) end.
Fixpoint padd (p r : list R) : list R :=
  match p, r with
  | [], _ => r
  | _, [] => p
  | a :: p', b :: r' => add a b :: padd p' r'
  end.
Fixpoint pmul0 (p r : list R) : list R := match p with [] => [] | a :: p' => padd (map (mul a) r) (zero :: pmul0 p' r) end.
Definition pmul (p r : list R) : list R := map red (pmul0 p r).
Definition psub (p r : list R) : list R := padd p (map (fun c => sub zero c) r).
Definition peq (p r : list R) : bool := forallb is0 (psub p r).
Lemma pev_add p : forall r x, pev (padd p r) x = add (pev p x) (pev r x).
Proof. induction p as [|a p IH]; intros [|b r] x; cbn [padd pev]; try ring. rewrite IH, hadd. ring. Qed.
Lemma pev_scale a p x : pev (map (mul a) p) x = mul (h a) (pev p x).
Proof. induction p as [|b p IH]; cbn [map pev]; [ring|]. rewrite IH, hmul. ring. Qed.
Lemma pev_mul p r x : pev (pmul p r) x = mul (pev p x) (pev r x).
Proof.
  unfold pmul. transitivity (pev (pmul0 p r) x).
  - induction (pmul0 p r) as [|c l IH]; cbn [map pev]; [reflexivity|]. now rewrite IH, hred.
  - induction p as [|a p IH]; cbn [pmul0 pev]; [ring|]. rewrite pev_add, pev_scale. cbn [pev]. rewrite IH, h0. ring.
Qed.
Lemma pev_sub p r x : pev (psub p r) x = sub (pev p x) (pev r x).
Proof.
  unfold psub. rewrite pev_add. assert (E : pev (map (fun c => sub zero c) r) x = opp (pev r x)).
  { induction r as [|b r IH]; cbn [map pev]; [ring|]. rewrite IH, hsub, h0. ring. }
  rewrite E. ring.
Qed.
Lemma peq_ok p r x : peq p r = true -> pev p x = pev r x.
Proof.
  unfold peq. intros H. assert (E : pev (psub p r) x = zero).
  { induction (psub p r) as [|c l IH]; [reflexivity|]. cbn [forallb] in H. apply andb_prop in H. destruct H as [H1 H2]. cbn [pev]. rewrite (his0 _ H1), IH by exact H2. ring. }
  rewrite pev_sub in E. transitivity (add (sub (pev p x) (pev r x)) (pev r x)); [ring|]. rewrite E. ring.
Qed.
End Poly.
