(** Keccak-f[1600] is a permutation: each step mapping has an inverse. *)
From Coq Require Import NArith Arith List Bool Lia Btauto ZifyBool ZifyNat ZifyN ZArith.
From Verif Require Import SpecStream LStream MPack LInj SpecKeccak MKeccak LKeccakF LKeccakP.
Import ListNotations.

Definition aeq (A B : sarray) : Prop := forall x y z, x < 5 -> y < 5 -> z < 64 -> A x y z = B x y z.

(** A step mapping with an inverse, up to the values outside the array. *)
Record invertible (f : sarray -> sarray) : Prop := {
  iv_cong : forall A B, aeq A B -> aeq (f A) (f B);
  iv_inv : exists g, (forall A B, aeq A B -> aeq (g A) (g B)) /\
             (forall A, aeq (g (f A)) A) /\ (forall A, aeq (f (g A)) A) }.

Lemma aeq_refl A : aeq A A. Proof. now intros ? ? ? _ _ _. Qed.
Lemma aeq_trans A B C : aeq A B -> aeq B C -> aeq A C.
Proof. intros H K x y z Hx Hy Hz. now rewrite H, K. Qed.
Lemma aeq_sym A B : aeq A B -> aeq B A.
Proof. intros H x y z Hx Hy Hz. now rewrite H. Qed.

Lemma invertible_comp f g : invertible f -> invertible g -> invertible (fun A => f (g A)).
Proof.
  intros [Cf (f' & Cf' & F1 & F2)] [Cg (g' & Cg' & G1 & G2)]. constructor; [auto|].
  exists (fun A => g' (f' A)). split; [auto|]. split; intros A.
  - eapply aeq_trans; [|apply G1]. apply Cg', F1.
  - eapply aeq_trans; [|apply F2]. apply Cf, G2.
Qed.

Lemma mod_lt a b : b <> 0 -> a mod b < b.
Proof. intros. now apply Nat.mod_upper_bound. Qed.

#[local] Hint Resolve mod_lt : core.
#[local] Hint Extern 3 (_ <> 0) => discriminate : core.

(** ** theta *)
Definition peq (P Q : nat -> nat -> bool) : Prop := forall x z, x < 5 -> z < 64 -> P x z = Q x z.

(** The effect of theta on the column parities, and its 2^k-fold iterates. *)
Definition pstep (k : nat) (P : nat -> nat -> bool) : nat -> nat -> bool := fun x z =>
  xorb (P x z) (xorb (P ((x + 4 * k) mod 5) z) (P ((x + k) mod 5) ((z + 63 * k) mod 64))).

Lemma pstep_cong k P Q : peq P Q -> peq (pstep k P) (pstep k Q).
Proof. intros H x z Hx Hz. unfold pstep. rewrite !H; auto. Qed.

Lemma peq_trans P Q R : peq P Q -> peq Q R -> peq P R.
Proof. intros H K x z Hx Hz. now rewrite H, K. Qed.
Lemma peq_refl P : peq P P. Proof. now intros ? ? _ _. Qed.

Lemma mod_mod_add a b c n : n <> 0 -> ((a + b) mod n + c) mod n = (a + (b + c)) mod n.
Proof. intros. rewrite Nat.add_mod_idemp_l by auto. f_equal. lia. Qed.

Lemma pstep_comm a b P : peq (pstep a (pstep b P)) (pstep b (pstep a P)).
Proof.
  intros x z Hx Hz. unfold pstep. rewrite !mod_mod_add by auto.
  rewrite (Nat.add_comm (4 * b) (4 * a)), (Nat.add_comm b a), (Nat.add_comm (63 * b) (63 * a)).
  rewrite (Nat.add_comm (4 * a) b), (Nat.add_comm (4 * b) a), (Nat.add_comm a (4 * b)), (Nat.add_comm b (4 * a)).
  btauto.
Qed.

Lemma pstep_double k P : peq (pstep k (pstep k P)) (pstep (2 * k) P).
Proof.
  intros x z Hx Hz. unfold pstep. rewrite !mod_mod_add by auto.
  replace (4 * k + 4 * k) with (4 * (2 * k)) by lia. replace (k + k) with (2 * k) by lia.
  replace (63 * k + 63 * k) with (63 * (2 * k)) by lia. rewrite (Nat.add_comm (4 * k) k).
  btauto.
Qed.

Lemma pstep_last P : peq (pstep 128 (pstep 64 P)) P.
Proof.
  intros x z Hx Hz. unfold pstep. rewrite !mod_mod_add by auto.
  assert (E : forall c, (z + c * 64) mod 64 = z).
  { intros. rewrite Nat.mod_add by auto. now apply Nat.mod_small. }
  change (63 * 64) with (63 * 64). rewrite (Nat.mul_comm 63 64), (Nat.mul_comm 64 63).
  change (63 * 128) with (126 * 64). change (126 * 64 + 63 * 64) with (189 * 64).
  rewrite !E.
  do 5 (destruct x as [|x]; [vm_compute ((_ + _) mod 5); cbn; btauto|]). lia.
Qed.

Definition pinv (P : nat -> nat -> bool) : nat -> nat -> bool :=
  pstep 128 (pstep 32 (pstep 16 (pstep 8 (pstep 4 (pstep 2 (pstep 1 P)))))).

Lemma pinv_left P : peq (pinv (pstep 1 P)) P.
Proof.
  unfold pinv.
  eapply peq_trans; [|apply pstep_last].
  apply pstep_cong.
  assert (D : forall k Q R, peq R (pstep k Q) -> peq (pstep k R) (pstep (2 * k) Q)).
  { intros k Q R H. eapply peq_trans; [apply pstep_cong; exact H|]. apply pstep_double. }
  apply (D 32). apply (D 16). apply (D 8). apply (D 4). apply (D 2). apply (D 1). apply peq_refl.
Qed.

Lemma pinv_cong P Q : peq P Q -> peq (pinv P) (pinv Q).
Proof. intros H. unfold pinv. repeat apply pstep_cong. exact H. Qed.

Lemma pinv_right P : peq (pstep 1 (pinv P)) P.
Proof.
  eapply peq_trans; [|apply pinv_left].
  unfold pinv.
  do 6 (eapply peq_trans; [apply pstep_comm|]; apply pstep_cong).
  apply peq_refl.
Qed.

Lemma xorb_twice a d : xorb (xorb a d) d = a.
Proof. now destruct a, d. Qed.

Definition D_of (P : nat -> nat -> bool) (x z : nat) : bool :=
  xorb (P ((x + 4) mod 5) z) (P ((x + 1) mod 5) ((z + 63) mod 64)).
Definition theta_inv (A : sarray) : sarray := fun x y z => xorb (A x y z) (D_of (pinv (col A)) x z).

Lemma pstep1 P x z : pstep 1 P x z = xorb (P x z) (D_of P x z).
Proof. reflexivity. Qed.

Lemma D_of_cong P Q : peq P Q -> peq (D_of P) (D_of Q).
Proof. intros H x z Hx Hz. unfold D_of. rewrite !H; auto. Qed.

Lemma col_xor A D : peq (col (fun x y z => xorb (A x y z) (D x z))) (fun x z => xorb (col A x z) (D x z)).
Proof. intros x z _ _. unfold col. btauto. Qed.

Lemma col_cong A B : aeq A B -> peq (col A) (col B).
Proof. intros H x z Hx Hz. unfold col. rewrite !H; auto; lia. Qed.

Lemma theta_invertible : invertible theta.
Proof.
  constructor.
  - intros A B H x y z Hx Hy Hz. unfold theta. rewrite H by auto. f_equal.
    change (theta_D A x z) with (D_of (col A) x z). change (theta_D B x z) with (D_of (col B) x z).
    apply D_of_cong; auto. now apply col_cong.
  - exists theta_inv. split; [|split].
    + intros A B H x y z Hx Hy Hz. unfold theta_inv. rewrite H by auto. f_equal.
      apply D_of_cong; auto. apply pinv_cong. now apply col_cong.
    + intros A x y z Hx Hy Hz. unfold theta_inv, theta at 1.
      assert (E : peq (pinv (col (theta A))) (col A)).
      { eapply peq_trans; [apply pinv_cong|apply pinv_left].
        apply (col_xor A (fun x z => theta_D A x z)). }
      rewrite (D_of_cong _ _ E) by auto.
      change (theta_D A x z) with (D_of (col A) x z). apply xorb_twice.
    + intros A x y z Hx Hy Hz. unfold theta, theta_inv at 1.
      assert (E : peq (col (theta_inv A)) (pinv (col A))).
      { eapply peq_trans; [apply (col_xor A (D_of (pinv (col A))))|].
        intros x' z' Hx' Hz'. cbv beta.
        rewrite <- (pinv_right (col A) x' z') by auto. rewrite pstep1. apply xorb_twice. }
      change (theta_D (theta_inv A) x z) with (D_of (col (theta_inv A)) x z).
      rewrite (D_of_cong _ _ E) by auto. apply xorb_twice.
Qed.

(** ** rho *)
Lemma rho_offset_lt x y : x < 5 -> y < 5 -> rho_offset x y < 64.
Proof.
  intros Hx Hy. do 5 (destruct x as [|x]; [do 5 (destruct y as [|y]; [vm_compute; lia|]); lia|]). lia.
Qed.

Lemma rho_invertible : invertible rho.
Proof.
  constructor.
  - intros A B H x y z Hx Hy Hz. unfold rho. apply H; auto.
  - exists (fun A x y z => A x y ((z + rho_offset x y) mod 64)). split; [|split].
    + intros A B H x y z Hx Hy Hz. apply H; auto.
    + intros A x y z Hx Hy Hz. unfold rho. rewrite mod_mod_add by auto. f_equal.
      pose proof (rho_offset_lt x y Hx Hy).
      replace (z + (rho_offset x y + (64 - rho_offset x y))) with (z + 1 * 64) by lia.
      rewrite Nat.mod_add by auto. now apply Nat.mod_small.
    + intros A x y z Hx Hy Hz. unfold rho. rewrite mod_mod_add by auto. f_equal.
      pose proof (rho_offset_lt x y Hx Hy).
      replace (z + (64 - rho_offset x y + rho_offset x y)) with (z + 1 * 64) by lia.
      rewrite Nat.mod_add by auto. now apply Nat.mod_small.
Qed.

(** ** pi: A'[x,y] = A[x+3y, x]; inverse A[u,v] = A'[v, 2(u-v)] = A'[v, 2u+3v]. *)
Lemma pi_invertible : invertible pi.
Proof.
  constructor.
  - intros A B H x y z Hx Hy Hz. unfold pi. apply H; auto.
  - exists (fun A x y z => A y ((2 * x + 3 * y) mod 5) z). split; [|split].
    + intros A B H x y z Hx Hy Hz. apply H; auto.
    + intros A x y z Hx Hy Hz. unfold pi.
      do 5 (destruct x as [|x]; [do 5 (destruct y as [|y]; [reflexivity|]); lia|]). lia.
    + intros A x y z Hx Hy Hz. unfold pi.
      do 5 (destruct x as [|x]; [do 5 (destruct y as [|y]; [reflexivity|]); lia|]). lia.
Qed.

(** ** chi *)
Definition chi_inv (A : sarray) : sarray := fun x y z =>
  let a i := A ((x + i) mod 5) y z in
  xorb (A x y z) (andb (negb (a 1)) (xorb (a 2) (andb (negb (a 3)) (a 4)))).

Lemma chi_invertible : invertible chi.
Proof.
  constructor.
  - intros A B H x y z Hx Hy Hz. unfold chi. rewrite !H; auto.
  - exists chi_inv. split; [|split].
    + intros A B H x y z Hx Hy Hz. unfold chi_inv. rewrite !H; auto.
    + intros A x y z Hx Hy Hz. unfold chi_inv, chi.
      do 5 (destruct x as [|x]; [
        cbv [Nat.modulo Nat.divmod Nat.add fst snd Nat.sub];
        destruct (A 0 y z), (A 1 y z), (A 2 y z), (A 3 y z), (A 4 y z); reflexivity |]). lia.
    + intros A x y z Hx Hy Hz. unfold chi_inv, chi.
      do 5 (destruct x as [|x]; [
        cbv [Nat.modulo Nat.divmod Nat.add fst snd Nat.sub];
        destruct (A 0 y z), (A 1 y z), (A 2 y z), (A 3 y z), (A 4 y z); reflexivity |]). lia.
Qed.

(** ** iota *)
Lemma iota_invertible ir : invertible (iota ir).
Proof.
  assert (I : forall A, aeq (iota ir (iota ir A)) A).
  { intros A x y z _ _ _. unfold iota. destruct ((x =? 0) && (y =? 0)); [btauto|reflexivity]. }
  assert (K : forall A B, aeq A B -> aeq (iota ir A) (iota ir B)).
  { intros A B H x y z Hx Hy Hz. unfold iota. now rewrite H. }
  constructor; [exact K|]. exists (iota ir). auto.
Qed.

(** ** Strings *)
Lemma to_array_to_string A : aeq (to_array (to_string A)) A.
Proof.
  intros x y z Hx Hy Hz. unfold to_array. rewrite nth_to_string by lia.
  replace (64 * (5 * y + x) + z) with (z + (5 * y + x) * 64) by lia.
  rewrite Nat.div_add, Nat.mod_add, (Nat.div_small z), (Nat.mod_small z) by lia.
  replace (0 + (5 * y + x)) with (x + y * 5) by lia.
  rewrite Nat.mod_add, (Nat.mod_small x) by lia. f_equal.
  replace (z + (5 * y + x) * 64) with ((z + 64 * x) + y * 320) by lia.
  rewrite Nat.div_add, Nat.div_small by lia. reflexivity.
Qed.

Lemma to_string_cong A B : aeq A B -> to_string A = to_string B.
Proof.
  intros H. unfold to_string. apply map_ext_in. intros i Hi. apply in_seq in Hi. apply H; auto.
  apply Nat.div_lt_upper_bound; lia.
Qed.

Lemma to_string_to_array S : length S = 1600 -> to_string (to_array S) = S.
Proof.
  intros L. apply nth_ext with (d := false) (d' := false).
  - now rewrite to_string_length.
  - intros i Hi. rewrite to_string_length in Hi. rewrite nth_to_string by auto.
    unfold to_array. f_equal.
    pose proof (Nat.div_mod i 64 ltac:(lia)). pose proof (Nat.div_mod (i / 64) 5 ltac:(lia)).
    change 320 with (64 * 5). rewrite <- Nat.div_div by lia. lia.
Qed.

Lemma Rnd_bij ir : exists g, (forall S, length (g S) = 1600) /\
  (forall S, length S = 1600 -> g (Rnd ir S) = S /\ Rnd ir (g S) = S).
Proof.
  assert (I : invertible (fun A => iota ir (chi (pi (rho (theta A)))))).
  { apply (invertible_comp (iota ir)); [apply iota_invertible|].
    apply (invertible_comp chi); [apply chi_invertible|].
    apply (invertible_comp pi); [apply pi_invertible|].
    apply (invertible_comp rho); [apply rho_invertible|apply theta_invertible]. }
  destruct I as [Cf (g & Cg & G1 & G2)].
  exists (fun S => to_string (g (to_array S))). split; [intros; apply to_string_length|].
  intros S L. unfold Rnd. split.
  - rewrite <- (to_string_to_array S L) at 2. apply to_string_cong.
    eapply aeq_trans; [|apply G1]. apply Cg. apply to_array_to_string.
  - rewrite <- (to_string_to_array S L) at 2. apply to_string_cong.
    eapply aeq_trans; [|apply G2]. apply (Cf _ _ (to_array_to_string _)).
Qed.

Lemma Rnds_bij rs : exists g, (forall S, length S = 1600 -> length (g S) = 1600) /\
  forall S, length S = 1600 ->
  g (fold_left (fun S ir => Rnd ir S) rs S) = S /\ fold_left (fun S ir => Rnd ir S) rs (g S) = S.
Proof.
  induction rs as [|ir rs (g & Lg & IH)].
  - exists (fun S => S). split; auto.
  - destruct (Rnd_bij ir) as (h & Lh & H). exists (fun S => h (g S)).
    split; [auto|]. intros S L. cbn [fold_left].
    assert (LR : forall S, length (Rnd ir S) = 1600) by (intros; apply to_string_length).
    split.
    + destruct (IH (Rnd ir S) (LR S)) as [-> _]. now apply H.
    + destruct (H (g S) (Lg S L)) as [_ ->]. now apply IH.
Qed.

Lemma Rnds_length rs : forall S, length S = 1600 -> length (fold_left (fun S ir => Rnd ir S) rs S) = 1600.
Proof.
  induction rs as [|ir rs IH]; intros S L; cbn [fold_left]; [exact L|]. apply IH. apply to_string_length.
Qed.

Lemma keccak_f_bij : exists g, (forall S, length S = 1600 -> length (g S) = 1600) /\
  forall S, length S = 1600 -> g (keccak_f S) = S /\ keccak_f (g S) = S.
Proof. apply Rnds_bij. Qed.

(** On states of words. *)
Lemma permute_injective s1 s2 : block_ok 64 25 s1 -> block_ok 64 25 s2 -> permute s1 = permute s2 -> s1 = s2.
Proof.
  intros H1 H2 E. destruct keccak_f_bij as (g & Lg & G).
  assert (W : 64 mod 8 = 0) by reflexivity.
  apply (stream_inj LOLB 64); auto; try lia; try apply H1; try apply H2.
  rewrite <- (proj1 (G (stream LOLB 64 s1) ltac:(rewrite stream_length; destruct H1; lia))).
  rewrite <- (proj1 (G (stream LOLB 64 s2) ltac:(rewrite stream_length; destruct H2; lia))).
  rewrite <- !permute_string by auto. now rewrite E.
Qed.

Lemma permute_surjective t : block_ok 64 25 t -> exists s, block_ok 64 25 s /\ permute s = t.
Proof.
  intros Ht. destruct keccak_f_bij as (g & Lg & G).
  assert (W : 64 mod 8 = 0) by reflexivity.
  assert (LS : length (stream LOLB 64 t) = 1600) by (rewrite stream_length; destruct Ht; lia).
  set (s := words_of_stream LOLB 64 (g (stream LOLB 64 t))).
  assert (Lgs : length (g (stream LOLB 64 t)) = 64 * 25) by now apply Lg.
  assert (Hs : block_ok 64 25 s) by (apply block_ok_words; auto; lia).
  exists s. split; [auto|].
  apply (stream_inj LOLB 64); auto; try lia; [apply permute_ok; auto|apply Ht|].
  rewrite permute_string by auto. unfold s.
  rewrite (block_stream_words LOLB 64 25) by (auto; lia). now apply G.
Qed.
