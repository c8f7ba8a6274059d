(** Several Pedersen accumulators: proofs. *)
From Coq Require Import NArith ZArith Arith List Bool Lia.
From Verif Require Import SpecStream SpecPedersen MPedersen LPedersen SpecStore MStore SpecPedStore.
Import ListNotations.

Section P.
Context {G : Type} (zero : G) (add : G -> G -> G) (mul : Z -> G -> G) (base : N -> G) (p : Z) (width c : nat).
Context (HG : group_laws zero add) (Hp : (0 < p)%Z).
Context (Hmul : forall i z, mul (z mod p)%Z (base i) = mul z (base i)).
Context (Hc : 2 <= c) (HW : (16 ^ (Z.of_nat c - 1) < 2 ^ Z.of_nat width)%Z).
Notation I := (fun i => base (N.of_nat i)).
Definition R (a : @pacc G) (x : list bool * G) : Prop :=
  exists full cur, Inv zero add mul base p width c a (fst x) (snd x) full cur.
Definition short (M : list bool) : Prop :=
  (N.of_nat (length M) < 2 ^ 64)%N /\ (N.of_nat (length M) <= N.of_nat (3 * c) * 2 ^ 32)%N.
Definition agree (slots : nat -> option (@pacc G)) (xs : nat -> option (list bool * G)) (Ms : nat -> option (list bool)) : Prop :=
  forall i, match slots i, xs i, Ms i with
            | Some a, Some x, Some M => R a x /\ fst x = M
            | None, None, None => True
            | _, _, _ => False
            end.
Lemma agree_put slots xs Ms i a x : agree slots xs Ms -> R a x -> agree (put i a slots) (put i x xs) (put i (fst x) Ms).
Proof. intros K HR k. unfold put. destruct (k =? i); [now split|apply K]. Qed.
Lemma short_fine M : short M -> fine base c (length M).
Proof. intros [H1 H2]. split; [exact H1|left; exact H2]. Qed.
Lemma run_ok cs : forall slots xs Ms, agree slots xs Ms -> Forall short (pedersen_messages Ms cs) ->
  pedersen_calls zero add mul base p width (N.of_nat c) slots cs = pedersen_reports zero add mul I c xs cs.
Proof.
  unfold pedersen_calls.
  induction cs as [|[i j|i u|i e|i k] cs IH]; intros slots xs Ms K HP; [reflexivity| | | |];
    cbn [run_store pedersen_reports pedersen_messages] in *.
  - apply (IH _ _ (put i [] Ms)); auto. apply (agree_put slots xs Ms i _ ([], zero) K).
    exists [], []. now apply inv_init.
  - pose proof (K i) as Ki. destruct (slots i) as [a|], (xs i) as [[M x]|], (Ms i) as [M'|]; try contradiction; [|reflexivity].
    destruct Ki as [(f & cu & HI) E]. cbn [fst snd] in *. subst M'. inversion HP as [|? ? Hs HP']; subst.
    destruct (update_bits_ok zero add mul base p width c HG Hp Hmul Hc HW u a M x f cu HI (short_fine _ Hs)) as (a' & f' & c' & E & HI').
    rewrite E. apply (IH _ _ (put i (M ++ u) Ms)); auto. apply (agree_put slots xs Ms i a' (M ++ u, x) K). now exists f', c'.
  - pose proof (K i) as Ki. destruct (slots i) as [a|], (xs i) as [[M x]|], (Ms i) as [M'|]; try contradiction; [|reflexivity].
    destruct Ki as [(f & cu & HI) E]. cbn [fst snd] in *. subst M'. inversion HP as [|? ? Hs HP']; subst.
    destruct (process_ok zero add mul base p width c HG Hp Hmul Hc HW a M x f cu HI (short_fine _ Hs)) as (a' & f' & c' & E & HI').
    rewrite E. f_equal. apply (IH _ _ (put i (pad3 M) Ms)); auto.
    apply (agree_put slots xs Ms i a' (pad3 M, add x (last_term mul I c M)) K). now exists f', c'.
  - pose proof (K i) as Ki. destruct (slots i) as [a|], (xs i) as [x|], (Ms i) as [M'|]; try contradiction; [|reflexivity].
    destruct Ki as [HR E]. subst M'. apply (IH _ _ (put k (fst x) Ms)); auto. now apply agree_put.
Qed.
Lemma programs cs : Forall short (pedersen_messages nothing cs) ->
  pedersen_calls zero add mul base p width (N.of_nat c) nothing cs = pedersen_reports zero add mul I c nothing cs.
Proof. apply run_ok. intros i. exact Logic.I. Qed.
End P.
